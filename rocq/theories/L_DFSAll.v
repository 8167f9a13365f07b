(** Lemmas about deep feature synthesis: what is built stays, and everything that fits is built. *)
From Coq Require Import Permutation.
From Verif Require Import Base BaseFacts M_Schema M_Feature M_Types M_Serialize M_Match M_DFS S_Schema S_Calc S_Match S_DFS S_DFSAll L_Schema P_Depth P_Match L_DFS P_DFS.
Local Open Scope string_scope.
Local Open Scope list_scope.

Lemma foldM_app {A S} (f : S -> A -> res S) l1 l2 s s' : foldM f (l1 ++ l2) s = Ok s' -> exists s1, foldM f l1 s = Ok s1 /\ foldM f l2 s1 = Ok s'.
Proof.
  revert s. induction l1 as [|a l1 IH]; intros s; cbn [foldM app]; [eauto|]. destruct (f s a) as [s1|]; cbn [bind]; [apply IH | discriminate].
Qed.
Lemma foldM_split {A S} (f : S -> A -> res S) l a s s' : In a l -> foldM f l s = Ok s' -> exists l1 l2 s1 s2, l = l1 ++ a :: l2 /\ foldM f l1 s = Ok s1 /\ f s1 a = Ok s2 /\ foldM f l2 s2 = Ok s'.
Proof.
  intros Ha H. apply in_split in Ha as (l1 & l2 & ->). apply foldM_app in H as (s1 & H1 & H2). cbn [foldM] in H2. destruct (f s1 a) as [s2|] eqn:E; cbn [bind] in H2; [|discriminate]. exists l1, l2, s1, s2. auto.
Qed.
Lemma dset_absent {V} k (v : V) d : dget String.eqb k d = None -> dset String.eqb k v d = d ++ [(k, v)].
Proof. induction d as [|[k' v'] d IH]; cbn [dset dget app]; [reflexivity|]. destruct (String.eqb k k'); [discriminate|]. intros H. rewrite IH by exact H. reflexivity. Qed.
Lemma dset_In_same {V} k (v : V) d : In (k, v) (dset String.eqb k v d).
Proof. induction d as [|[k' v'] d IH]; cbn [dset]; [left; reflexivity|]. destruct (String.eqb_spec k k') as [<-|Hk]; [left; reflexivity | right; exact IH]. Qed.
Lemma dset_In_other {V} k (v : V) d n x : In (n, x) d -> n <> k -> In (n, x) (dset String.eqb k v d).
Proof. induction d as [|[k' v'] d IH]; cbn [dset]; [intros []|]. intros H Hn. destruct (String.eqb_spec k k') as [<-|Hk]; (destruct H as [[= -> ->]|H]; [|]); try contradiction; [right; exact H | left; reflexivity | right; apply IH; assumption]. Qed.
Lemma mapM_In_r {A B} (f : A -> res B) l l' x : mapM f l = Ok l' -> In x l -> exists y, In y l' /\ f x = Ok y.
Proof.
  revert l'. induction l as [|a l IH]; intros l' H Hx; [destruct Hx|]. cbn [mapM] in H. destruct (f a) as [b|] eqn:E; cbn [bind] in H; [|discriminate]. destruct (mapM f l) as [l1|] eqn:E1; cbn [bind] in H; [|discriminate]. injection H as <-.
  destruct Hx as [<-|Hx]; [exists b; split; [left; reflexivity | exact E]|]. destruct (IH l1 eq_refl Hx) as (y & Hy & Ey). exists y. split; [right; exact Hy | exact Ey].
Qed.
Lemma unique_pair {V} (d : list (string * V)) n x y : NoDup (map fst d) -> In (n, x) d -> In (n, y) d -> x = y.
Proof.
  induction d as [|[k v] d IH]; cbn [map]; [intros _ []|]. intros Hn. inversion Hn as [|? ? H1 H2]; subst. intros [E1|H] [E2|H'].
  - congruence.
  - injection E1 as -> ->. exfalso. apply H1. apply in_map_iff. exists (n, y). auto.
  - injection E2 as -> ->. exfalso. apply H1. apply in_map_iff. exists (n, x). auto.
  - apply IH; assumption.
Qed.

Section DFS.
  Variable variables : string -> list string.
  Variable vtypes : string -> string -> option vtyp.
  Variable interesting : string -> string -> list val.
  Variable rels : list relationship.
  Variable p_ret : prim -> option vtyp.
  Variable p_inputs : prim -> option (list (list vtyp)).
  Variable attr : prim -> pattr.
  Variable subc : nat -> nat -> bool.
  Variable eq_prim : val -> prim.
  Variable lower : string -> string.
  Variable ordF : list feat -> list feat.
  Hypothesis ordF_perm : forall l, Permutation (ordF l) l.
  Variable A : dfs_args.
  Variable G : gopts.
  Variable D : option Z.
  Hypothesis no_seeds : g_seeds A = [].
  Notation ftype := (ftype p_ret vtypes).
  Notation fname := (fname rels).
  Notation funique := (funique rels).
  Notation depth := (get_depth rels None).
  Notation mk_agg := (mk_agg p_ret p_inputs vtypes rels (fun _ _ => Ok tt)).
  Notation mk_trans := (mk_trans p_ret p_inputs vtypes).
  Notation mk_group := (mk_group p_ret p_inputs vtypes).
  Notation handle_new_feature := (handle_new_feature rels A).
  Notation add_all := (add_all rels A).
  Notation opts := (opts attr G).
  Notation features_by_type := (features_by_type vtypes rels p_ret A).
  Notation get_matching_inputs := (get_matching_inputs vtypes rels p_ret attr lower ordF A G).
  Notation run_dfs := (run_dfs variables vtypes interesting rels p_ret p_inputs attr subc eq_prim lower ordF A G).
  Notation build_transform_features := (build_transform_features vtypes rels p_ret p_inputs attr lower ordF A G).
  Notation build_forward_features := (build_forward_features vtypes rels p_ret A).
  Notation agg_one := (agg_one vtypes rels p_ret p_inputs attr subc ordF A).
  Notation build_agg_features := (build_agg_features vtypes rels p_ret p_inputs attr subc lower ordF A G).
  Notation build_where_clauses := (build_where_clauses vtypes interesting rels p_ret p_inputs eq_prim).
  Notation gen := (gen variables vtypes interesting rels p_ret p_inputs attr subc eq_prim A G D).
  Notation inv_all := (inv_all variables vtypes interesting rels p_ret p_inputs attr subc eq_prim A G D).
  Notation inv := (inv variables vtypes interesting rels p_ret p_inputs attr subc eq_prim A G D).
  Notation open_entity := (open_entity A G).
  Notation mdle := (mdle A D).
  Notation vals d := (map (@snd string feat) d).

  (** ** Growth *)
  (** only the features of [e] change, and only by adding features that satisfy [Q] *)
  Definition grows (e : string) (Q : feat -> Prop) (a b : afeats) : Prop :=
    (forall e', e' <> e -> dget String.eqb e' b = dget String.eqb e' a) /\
    (forall d, dget String.eqb e a = Some d -> exists new, dget String.eqb e b = Some (d ++ new) /\ forall n f, In (n, f) new -> Q f) /\
    (dget String.eqb e a = None -> dget String.eqb e b = None).
  Lemma grows_refl e Q a : grows e Q a a.
  Proof. split; [auto|]. split; [|auto]. intros d Hd. exists []. rewrite app_nil_r. split; [exact Hd | intros n f []]. Qed.
  Lemma grows_trans e (Q : feat -> Prop) a b c : grows e Q a b -> grows e Q b c -> grows e Q a c.
  Proof.
    intros (H1 & H2 & H3) (K1 & K2 & K3). split; [intros e' He; rewrite K1, H1 by exact He; reflexivity|]. split; [|auto]. intros d Hd. destruct (H2 d Hd) as (n1 & E1 & Q1). destruct (K2 _ E1) as (n2 & E2 & Q2). exists (n1 ++ n2). rewrite app_assoc. split; [exact E2|].
    intros n f Hf. apply in_app_or in Hf as [Hf|Hf]; eauto.
  Qed.
  Lemma grows_weaken e (Q Q' : feat -> Prop) a b : (forall f, Q f -> Q' f) -> grows e Q a b -> grows e Q' a b.
  Proof. intros H (H1 & H2 & H3). split; [exact H1|]. split; [|exact H3]. intros d Hd. destruct (H2 d Hd) as (n1 & E1 & Q1). exists n1. split; [exact E1 | eauto]. Qed.
  Lemma grows_value e Q a b e' d : grows e Q a b -> dget String.eqb e' a = Some d -> exists new, dget String.eqb e' b = Some (d ++ new).
  Proof. intros (H1 & H2 & _) Hd. destruct (String.eqb_spec e' e) as [->|He]; [destruct (H2 d Hd) as (n & E & _); eauto | rewrite H1 by exact He; exists []; rewrite app_nil_r; exact Hd]. Qed.
  Lemma handle_grows f all all' : handle_new_feature f all = Ok all' -> grows (fentity f) (eq f) all all' /\ exists d, dget String.eqb (fentity f) all' = Some d /\ In (funique f) (map fst d).
  Proof.
    unfold M_DFS.handle_new_feature, seed_names. rewrite no_seeds. cbn [map]. destruct (dget String.eqb (fentity f) all) as [d|] eqn:Ed; [|discriminate]. destruct (dget String.eqb (funique f) d) as [x|] eqn:Ex; cbn [mem_str existsb negb].
    - intros [= <-]. split; [apply grows_refl|]. exists d. split; [exact Ed|]. apply (dget_In _ String.eqb_spec) in Ex. apply in_map_iff. exists (funique f, x). auto.
    - intros [= <-]. rewrite (dset_absent _ _ _ Ex). split.
      + split; [intros e' He; apply (dget_dset_other _ String.eqb_spec); exact He|]. split; [|congruence]. intros d' Hd'. rewrite Ed in Hd'. injection Hd' as <-. exists [(funique f, f)]. split; [apply (dget_dset_same _ String.eqb_spec)|]. intros n g [[= <- <-]|[]]. reflexivity.
      + eexists. split; [apply (dget_dset_same _ String.eqb_spec)|]. rewrite map_app. apply in_or_app. right. left. reflexivity.
  Qed.
  Lemma add_grows e (Q : feat -> Prop) fs all all' : (forall f, In f fs -> fentity f = e /\ Q f) -> add_all fs all = Ok all' ->
    grows e Q all all' /\ forall f, In f fs -> exists d, dget String.eqb e all' = Some d /\ In (funique f) (map fst d).
  Proof.
    unfold M_DFS.add_all. revert all. induction fs as [|f fs IH]; intros all Hf; cbn [foldM]; [intros [= <-]; split; [apply grows_refl | intros f []]|]. destruct (handle_new_feature f all) as [a1|] eqn:E1; cbn [bind]; [|discriminate]. intros E.
    destruct (IH a1 (fun g Hg => Hf g (or_intror Hg)) E) as [G2 K2]. destruct (handle_grows _ _ _ E1) as [G1 (d & Hd & Hk)]. destruct (Hf f (or_introl eq_refl)) as [He HQ]. rewrite He in *.
    split; [eapply grows_trans; [eapply grows_weaken; [|exact G1]; intros x <-; exact HQ | exact G2]|]. intros x [<-|Hx]; [|apply K2; exact Hx]. destruct (grows_value _ _ _ _ _ _ G2 Hd) as (new & En). exists (d ++ new). split; [exact En|]. rewrite map_app. apply in_or_app. left. exact Hk.
  Qed.

  (** ** The pool of inputs *)
  Lemma pool_depth_eq f : pool_depth rels A f = depth f.
  Proof. unfold pool_depth, seed_names. rewrite no_seeds. cbn [map]. unfold get_depth. apply depth_stop_nil. Qed.
  Lemma in_vals (d : list (string * feat)) x : (forall kv, In kv d -> fst kv = funique (snd kv)) -> In x (vals d) -> In (funique x, x) d.
  Proof. intros H Hx. apply in_map_iff in Hx as ([n f] & <- & Hx). pose proof (H _ Hx) as E. cbn [fst snd] in *. rewrite E in Hx. exact Hx. Qed.
  (** an input survives unless an output of another feature has its name *)
  Lemma expand_keeps (d d' : list (string * feat)) f x : (forall kv, In kv d -> fst kv = funique (snd kv)) -> expand rels d = Ok d' -> In f (vals d) -> In x (outputs f) ->
    (forall g, In g (vals d) -> 1 < fnout g -> funique g <> funique x) ->
    (forall g i, In g (vals d) -> 1 < fnout g -> i < fnout g -> funique (FSlice g i None) = funique x -> FSlice g i None = x) -> In (funique x, x) d'.
  Proof.
    intros Hk Hd Hf Hx Hmulti Hslice. unfold expand in Hd.
    set (step := fun acc (kv : string * feat) => if Nat.ltb 1 (fnout (snd kv)) then do sl <- mapM (fun i => mk_slice (snd kv) i None) (seq 0 (fnout (snd kv))); Ok (fold_left (fun acc s => dset String.eqb (funique s) s acc) sl (ddel (fst kv) acc)) else Ok acc) in Hd.
    assert (forall sl acc, (forall s, In s sl -> funique s = funique x -> s = x) -> In (funique x, x) acc \/ In x sl -> In (funique x, x) (fold_left (fun acc s => dset String.eqb (funique s) s acc) sl acc)) as Hfold.
    { induction sl as [|s sl IH]; intros acc Hs H; cbn [fold_left]; [destruct H as [H|[]]; exact H|]. apply IH; [intros y Hy; apply Hs; right; exact Hy|]. destruct (String.eqb_spec (funique s) (funique x)) as [E|E].
      - left. rewrite (Hs s (or_introl eq_refl) E). apply dset_In_same.
      - destruct H as [H|[->|H]]; [left; apply dset_In_other; [exact H | congruence] | contradiction | right; exact H]. }
    assert (forall acc kv acc', In kv d -> step acc kv = Ok acc' -> In (funique x, x) acc \/ (1 < fnout (snd kv) /\ In x (outputs (snd kv))) -> In (funique x, x) acc') as Hstep.
    { intros acc kv acc' Hkv E H. subst step. cbv beta in E. assert (In (snd kv) (vals d)) as Hv by (apply in_map_iff; exists kv; auto). destruct (Nat.ltb_spec 1 (fnout (snd kv))) as [Ho|Ho]; [|injection E as <-; destruct H as [H|[H _]]; [exact H | lia]].
      destruct (mapM _ _) as [sl|] eqn:Es; cbn [bind] in E; [|discriminate]. injection E as <-.
      assert (forall s, In s sl -> exists i, i < fnout (snd kv) /\ s = FSlice (snd kv) i None) as Hsl.
      { intros s Hs. destruct (mapM_In _ _ _ _ Es Hs) as (i & Hi & Ei). apply in_seq in Hi. exists i. unfold mk_slice in Ei. destruct (_ && _)%bool; [injection Ei as <-; split; [lia | reflexivity] | discriminate]. }
      apply Hfold.
      - intros s Hs Eu. destruct (Hsl s Hs) as (i & Hi & ->). apply Hslice; assumption.
      - destruct H as [H|[_ H]].
        + left. apply filter_In. split; [exact H|]. cbn [fst]. apply negb_true_iff, String.eqb_neq. rewrite (Hk kv Hkv). intros E. apply (Hmulti (snd kv) Hv Ho). symmetry. exact E.
        + right. unfold outputs in H. assert (Nat.ltb 1 (fnout (snd kv)) = true) as Hlt by (apply Nat.ltb_lt; exact Ho). rewrite Hlt in H. apply in_map_iff in H as (i & <- & Hi). destruct (mapM_In_r _ _ _ i Es Hi) as (y & Hy & Ey). unfold mk_slice in Ey. destruct (_ && _)%bool; [injection Ey as <-; exact Hy | discriminate]. }
    assert (forall l acc, (forall kv, In kv l -> In kv d) -> foldM step l acc = Ok d' -> In (funique x, x) acc -> In (funique x, x) d') as Hrest.
    { induction l as [|kv l IH]; intros acc Hl E H; cbn [foldM] in E; [injection E as <-; exact H|]. destruct (step acc kv) as [a1|] eqn:E1; cbn [bind] in E; [|discriminate]. apply (IH a1); [intros y Hy; apply Hl; right; exact Hy | exact E|]. eapply Hstep; [apply Hl; left; reflexivity | exact E1 | left; exact H]. }
    pose proof (in_vals d f Hk Hf) as Hf'. unfold outputs in Hx. destruct (Nat.ltb_spec 1 (fnout f)) as [Ho|Ho].
    - destruct (foldM_split _ _ _ _ _ Hf' Hd) as (l1 & l2 & s1 & s2 & El & E1 & E2 & E3). apply (Hrest l2 s2); [intros y Hy; rewrite El; apply in_or_app; right; right; exact Hy | exact E3|]. eapply Hstep; [exact Hf' | exact E2|]. right. cbn [snd]. split; [exact Ho|]. unfold outputs. apply Nat.ltb_lt in Ho. rewrite Ho. exact Hx.
    - destruct Hx as [<-|[]]. apply (Hrest d d); [auto | exact Hd | exact Hf'].
  Qed.
  (** the pool has single outputs only *)
  Lemma expand_single (d d' : list (string * feat)) : (forall kv, In kv d -> fst kv = funique (snd kv)) -> expand rels d = Ok d' -> forall kv, In kv d' -> fnout (snd kv) <= 1.
  Proof.
    intros Hk Hd. unfold expand in Hd.
    match type of Hd with foldM ?s _ _ = _ => set (step := s) in Hd end.
    assert (forall sl acc P, (forall s : feat, In s sl -> fnout s <= 1) -> (forall kv, In kv acc -> fnout (snd kv) <= 1 \/ P kv) -> forall kv, In kv (fold_left (fun acc s => dset String.eqb (funique s) s acc) sl acc) -> fnout (snd kv) <= 1 \/ P kv) as Hfold.
    { induction sl as [|s sl IH]; intros acc P Hs H; cbn [fold_left]; [exact H|]. apply IH; [intros y Hy; apply Hs; right; exact Hy|]. intros [n y] Hy. destruct (In_dset _ _ _ _ _ Hy) as [[-> ->]|Hy']; [left; apply Hs; left; reflexivity | apply H; exact Hy']. }
    assert (forall l acc, (forall kv, In kv l -> In kv d) -> (forall kv, In kv acc -> fnout (snd kv) <= 1 \/ In kv l) -> foldM step l acc = Ok d' -> forall kv, In kv d' -> fnout (snd kv) <= 1) as Hl.
    { induction l as [|kv l IH]; intros acc Hin H E; cbn [foldM] in E; [injection E as <-; intros x Hx; destruct (H x Hx) as [?|[]]; assumption|]. destruct (step acc kv) as [a1|] eqn:E1; cbn [bind] in E; [|discriminate].
      apply (IH a1); [intros y Hy; apply Hin; right; exact Hy | | exact E]. subst step. cbv beta in E1. destruct (Nat.ltb_spec 1 (fnout (snd kv))) as [Ho|Ho].
      - destruct (mapM _ _) as [sl|] eqn:Es; cbn [bind] in E1; [|discriminate]. injection E1 as <-. apply (Hfold _ _ (fun kv => In kv l)).
        + intros s Hs. destruct (mapM_In _ _ _ _ Es Hs) as (i & _ & Ei). unfold mk_slice in Ei. destruct (_ && _)%bool; [injection Ei as <-; cbn [fnout]; lia | discriminate].
        + intros x Hx. apply filter_In in Hx as [Hx Hne]. apply negb_true_iff, String.eqb_neq in Hne. destruct (H x Hx) as [?|[<-|?]]; [left; assumption | contradiction | right; assumption].
      - injection E1 as <-. intros x Hx. destruct (H x Hx) as [?|[<-|?]]; [left; assumption | left; exact Ho | right; assumption]. }
    apply (Hl d d); auto.
  Qed.
  Lemma filterM_all p l l' x : filterM p l = Ok l' -> In x l -> p x = Ok true -> In x l'.
  Proof.
    revert l'. induction l as [|y l IH]; intros l'; cbn [filterM]; [intros _ []|]. destruct (p y) as [b|] eqn:Ep; cbn [bind]; [|discriminate]. destruct (filterM p l) as [l1|] eqn:El; cbn [bind]; [|discriminate].
    intros [= <-] [<-|Hx] Hp; [rewrite Ep in Hp; injection Hp as ->; left; reflexivity|]. destruct b; [right|]; apply IH; auto.
  Qed.
  Lemma filterM_NoDup {B} (k : feat -> B) p l l' : filterM p l = Ok l' -> NoDup (map k l) -> NoDup (map k l').
  Proof.
    revert l'. induction l as [|y l IH]; intros l'; cbn [filterM]; [intros [= <-]; auto|]. destruct (p y) as [b|]; cbn [bind]; [|discriminate]. destruct (filterM p l) as [l1|] eqn:El; cbn [bind]; [|discriminate].
    intros [= <-] H. cbn [map] in H. inversion H as [|? ? H1 H2]; subst. destruct b; [|apply IH; auto]. cbn [map]. constructor; [|apply IH; auto]. intros Hin. apply H1. apply in_map_iff in Hin as (z & Ez & Hz). apply (filterM_In _ _ _ _ El) in Hz as [Hz _]. apply in_map_iff. exists z. auto.
  Qed.
  (** whether the limit [md] leaves room for features as deep as [b] *)
  Definition fits_depth (md : option Z) (b : feat) : Prop := forall m n, md = Some m -> depth b = Ok n -> (Z.of_nat n <= m)%Z.
  Lemma by_type_all all e md ts fs d d' x : inv_all all -> features_by_type all e md ts = Ok fs -> dget String.eqb e all = Some d -> expand rels d = Ok d' ->
    In (funique x, x) d' -> (forall l, ts = Some l -> existsb (issub (ftype x)) l = true) -> fits_depth md x -> In x fs.
  Proof.
    intros Hi. unfold M_DFS.features_by_type. intros H Hd Hd' Hx Hty Hdep. rewrite Hd, Hd' in H. cbn [bind] in H. destruct (depth_total rels x) as (n & Hn).
    destruct (match md with Some m => Z.ltb m 0 | None => false end) eqn:Em.
    - destruct md as [m|]; [|discriminate]. apply Z.ltb_lt in Em. specialize (Hdep m n eq_refl Hn). lia.
    - eapply filterM_all; [exact H| |].
      + apply filter_In. split; [apply in_map_iff; exists (funique x, x); auto|]. destruct ts as [l|]; [apply Hty; reflexivity | reflexivity].
      + unfold deep_enough. destruct md as [m|]; [|reflexivity]. rewrite pool_depth_eq, Hn. cbn [bind]. f_equal. apply Z.leb_le. apply Hdep; auto.
  Qed.
  Lemma dict_ok all e d : inv_all all -> dget String.eqb e all = Some d -> (forall kv, In kv d -> fst kv = funique (snd kv)) /\ (forall kv, In kv d -> entry variables vtypes interesting rels p_ret p_inputs attr subc eq_prim A G D e kv) /\ NoDup (map fst d).
  Proof. intros Hi Hd. destruct (Hi _ _ Hd) as (_ & Hn & H). split; [intros [n f] Hk; apply (H n f Hk)|]. split; [|exact Hn]. intros [n f] Hk. destruct (H n f Hk) as (H1 & H2 & H3 & _). split; [exact H1|]. split; assumption. Qed.
  Lemma by_type_pool all e md ts fs : inv_all all -> features_by_type all e md ts = Ok fs ->
    NoDup fs /\ (forall f g, In f fs -> In g fs -> fname f = fname g -> f = g) /\ (forall f, In f fs -> fentity f = e /\ fnout f <= 1).
  Proof.
    intros Hi H. assert (NoDup (map funique fs) /\ forall f, In f fs -> fentity f = e /\ fnout f <= 1) as [Hn He].
    { unfold M_DFS.features_by_type in H. destruct (match md with Some m => Z.ltb m 0 | None => false end); [injection H as <-; split; [constructor | intros f []]|]. destruct (dget String.eqb e all) as [d|] eqn:Ed; [|injection H as <-; split; [constructor | intros f []]].
      destruct (expand rels d) as [d'|] eqn:Ex; cbn [bind] in H; [|discriminate]. destruct (dict_ok _ _ _ Hi Ed) as (H1 & H2 & H3). destruct (expand_inv _ _ _ _ _ _ _ _ _ _ _ _ _ _ _ H2 H3 Ex) as [K1 K2].
      assert (map funique (vals d') = map fst d') as Em by (rewrite map_map; apply map_ext_in; intros kv Hkv; symmetry; apply (K1 kv Hkv)). split.
      - apply (filterM_NoDup funique _ _ _ H). rewrite <- Em in K2. revert K2. generalize (vals d') as l. induction l as [|y l IH]; cbn [map filter]; [auto|]. intros Hl. inversion Hl as [|? ? L1 L2]; subst. destruct (match ts with None => true | Some ts => existsb (issub (ftype y)) ts end); [|apply IH; exact L2].
        cbn [map]. constructor; [|apply IH; exact L2]. intros Hin. apply L1. apply in_map_iff in Hin as (z & Ez & Hz). apply filter_In in Hz as [Hz _]. apply in_map_iff. exists z. auto.
      - intros f Hf. apply (filterM_In _ _ _ _ H) in Hf as [Hf _]. apply filter_In in Hf as [Hf _]. apply in_map_iff in Hf as (kv & <- & Hkv). split; [apply (K1 kv Hkv) | apply (expand_single d d' H1 Ex kv Hkv)]. }
    assert (NoDup fs) as Hnd by (eapply NoDup_map_inv; exact Hn). split; [exact Hnd|]. split; [|exact He]. intros f g Hf Hg E. assert (funique f = funique g) as Eu by (unfold M_Feature.funique; rewrite (proj1 (He f Hf)), (proj1 (He g Hg)), E; reflexivity).
    clear - Hn Hf Hg Eu. induction fs as [|y fs IH]; [destruct Hf|]. cbn [map] in Hn. inversion Hn as [|? ? L1 L2]; subst. destruct Hf as [<-|Hf], Hg as [<-|Hg]; [reflexivity | | | apply IH; assumption].
    - exfalso. apply L1. rewrite Eu. apply in_map. exact Hg.
    - exfalso. apply L1. rewrite <- Eu. apply in_map. exact Hf.
  Qed.

  (** ** Matching *)
  Lemma same_path_parent m : m <> [] -> all_direct_and_same_path m = true -> same_parent m.
  Proof.
    intros Hne H. unfold all_direct_and_same_path in H. apply andb_true_iff in H as [H1 H2]. rewrite forallb_forall in H1. destruct m as [|b m]; [contradiction|]. rewrite forallb_forall in H2.
    assert (forall x, In x (b :: m) -> exists r y nm, x = FDirect r y nm) as Hd by (intros x Hx; specialize (H1 x Hx); destruct x as [| r y nm | | | |]; try discriminate; eauto).
    destruct (Hd b (or_introl eq_refl)) as (r & y & nm & ->). exists r. intros x [<-|Hx]; [eauto|]. destruct (Hd x (or_intror Hx)) as (r' & y' & nm' & ->). specialize (H2 _ Hx). cbn [fpath] in H2. unfold path_eqb in H2. cbn [list_eqb] in H2. rewrite andb_true_r in H2. destruct (edge_eqb_spec (true, r') (true, r)) as [[= ->]|]; [eauto | discriminate].
  Qed.
  Lemma matching_all all e md ts p direct flt ms m : inv_all all -> get_matching_inputs all e md ts p direct flt = Ok ms ->
    (forall fs, features_by_type all e md (Some ts) = Ok fs -> incl m fs) -> (forall b, In b m -> flt b = true) -> NoDup m -> Forall2 (fun f ty => issub (ftype f) ty = true) m ts ->
    (direct = true -> (exists f, In f m /\ is_direct f = true) /\ ~ same_parent m) -> all_pass rels (opts p) m ->
    exists m', In m' ms /\ reordered (a_comm (attr p)) m m' /\ all_pass rels (opts p) m'.
  Proof.
    intros Hi H Hpool Hflt Hnd Hty Hdir Hpass. unfold M_DFS.get_matching_inputs in H. destruct (features_by_type all e md (Some ts)) as [fs|] eqn:Ef; cbn [bind] in H; [|discriminate]. specialize (Hpool fs eq_refl).
    destruct (by_type_pool _ _ _ _ _ Hi Ef) as (P1 & P2 & P3). set (fs0 := filter flt fs) in *.
    assert (NoDup fs0) as Q1 by (apply NoDup_filter; exact P1). assert (forall f, In f fs0 -> fentity f = e) as Q2 by (intros f Hf; apply filter_In in Hf as [Hf _]; apply P3; exact Hf).
    assert (forall f g, In f fs0 -> In g fs0 -> fname f = fname g -> f = g) as Q3 by (intros f g Hf Hg; apply filter_In in Hf as [Hf _]; apply filter_In in Hg as [Hg _]; apply P2; assumption).
    assert (choice p_ret vtypes ts fs0 m) as Hc by (split; [intros x Hx; apply filter_In; split; [apply Hpool; exact Hx | apply Hflt; exact Hx] | split; assumption]).
    destruct (match_inputs _ _ _ _ _ _ _ _ _) as [ms1|] eqn:Em; cbn [bind] in H; [|discriminate]. assert (ts <> []) as Hts by (intros ->; discriminate Em).
    assert (m <> []) as Hmne by (intros ->; inversion Hty; subst; contradiction).
    (* a match that is a reordering of m *)
    assert (exists m1, In m1 ms1 /\ Permutation m1 m /\ (a_comm (attr p) = false -> m1 = m)) as (m1 & Hm1 & Hperm & Hsame).
    { assert (direct = true -> exists f, In f m /\ is_direct f = true) as Hdd by (intros E; apply Hdir; exact E).
      assert (match_inputs rels p_ret vtypes lower ordF ts fs0 false direct = Ok ms1 -> In m ms1) as Hplain.
      { intros E. destruct (C30_match_exact rels p_ret vtypes lower ordF e fs0 ts direct Hts Q1 Q2 Q3) as (ms2 & E2 & _ & Hall). rewrite E in E2. injection E2 as <-. apply Hall. split; [exact Hc | exact Hdd]. }
      destruct (a_comm (attr p)) eqn:Ec; [|exists m; auto using Permutation_refl]. destruct ts as [|t [|t' ts]]; [contradiction | exists m; split; [apply Hplain; exact Em | auto using Permutation_refl]|].
      destruct (C30_commutative rels p_ret vtypes lower ordF ordF_perm e fs0 (t :: t' :: ts) direct ltac:(cbn [List.length]; lia) Q1 Q2 Q3) as (ms2 & E2 & _ & _ & Hall & _). rewrite Em in E2. injection E2 as <-. destruct (Hall m Hc Hdd) as (m1 & H1 & H2 & _). exists m1. split; [exact H1|]. split; [exact H2 | discriminate]. }
    set (ms2 := if direct then filter (fun m => negb (all_direct_and_same_path m)) ms1 else ms1) in *.
    assert (In m1 ms2) as Hm2.
    { subst ms2. destruct direct; [|exact Hm1]. apply filter_In. split; [exact Hm1|]. apply negb_true_iff, not_true_is_false. intros E. destruct (Hdir eq_refl) as [_ Hn]. apply Hn. apply same_path_parent in E; [|intros ->; apply Permutation_nil in Hperm; contradiction].
      destruct E as (r & E). exists r. intros b Hb. apply E. apply (Permutation_in _ (Permutation_sym Hperm)). exact Hb. }
    assert (opts p <> []) as Hos by (intros E; rewrite E in H; destruct ms2 as [|? ?]; [destruct Hm2 | discriminate H]).
    destruct (C31_tuples rels p_ret vtypes ms2 (opts p) (a_comm (attr p)) Hos) as (kept & Ek & Kin & Kall & Kcomm). rewrite H in Ek. injection Ek as ->.
    assert (forall x, In x ms2 -> incl x fs0) as Hin2 by (intros x Hx; apply (inputs_incl _ _ _ _ _ ordF_perm _ _ _ _ _ _ Em); subst ms2; destruct direct; [apply filter_In in Hx; tauto | exact Hx]).
    assert (forall t, In t kept -> incl t fs0) as Hkin. { intros t Ht. destruct (Kin t Ht) as (_ & x & Hx & [-> |[_ Hp]]); [apply Hin2; exact Hx|]. intros y Hy. apply (Hin2 x Hx). eapply Permutation_in; eauto. }
    unfold reordered. destruct (a_comm (attr p)) eqn:Ec.
    - destruct (Kcomm m1 m Hm2 eq_refl (Permutation_sym Hperm) Hpass) as (t & Ht & Hp). exists t. split; [exact Ht|]. split; [|apply (Kin t Ht)]. apply Permutation_map_inv in Hp as (l3 & E3 & Hp3). assert (t = l3) as ->; [|rewrite <- Hp3; exact Hperm].
      apply (map_key_pool rels e fs0 Q2 Q3); [apply Hkin; exact Ht | | exact E3]. intros y Hy. apply (Hin2 m1 Hm2). eapply Permutation_in; [symmetry; exact Hp3 | exact Hy].
    - specialize (Hsame eq_refl). subst m1. destruct (Kall m Hm2 Hpass) as (t & Ht & E). exists t. split; [exact Ht|]. split; [|apply (Kin t Ht)]. apply (map_key_pool rels e fs0 Q2 Q3); [apply Hkin; exact Ht | apply Hin2; exact Hm2 | exact E].
  Qed.

  (** ** One step *)
  Lemma usable_perm m m' : Permutation m' m -> usable attr m = true -> usable attr m' = true.
  Proof.
    intros Hp. unfold usable, check_transform_stacking. rewrite !andb_true_iff, !forallb_forall. intros [H1 H2]. split; intros b Hb; [apply H1 | apply H2]; eapply Permutation_in; eauto.
  Qed.
  Lemma trans_step_all all e md direct p fs ts rest m : inv_all all -> trans_step vtypes rels p_ret p_inputs attr lower ordF A G all e md direct p = Ok fs ->
    p_inputs p = Some (ts :: rest) -> ignore_entity_for_primitive (opts p) e false = false ->
    (forall l, features_by_type all e (lower_depth md) (Some ts) = Ok l -> incl m l) -> NoDup m -> Forall2 (fun f ty => issub (ftype f) ty = true) m ts ->
    (direct = true -> (exists f, In f m /\ is_direct f = true) /\ ~ same_parent m) -> all_pass rels (opts p) m -> usable attr m = true ->
    exists m', In (FTrans p m' None) fs /\ reordered (a_comm (attr p)) m m'.
  Proof.
    intros Hi H Hsig Hig Hpool Hnd Hty Hdir Hpass Hu. unfold trans_step in H. rewrite Hig in H. unfold dfs_types in H. rewrite Hsig in H. cbn [bind] in H.
    destruct (get_matching_inputs _ _ _ _ _ _ _) as [ms|] eqn:Em; cbn [bind] in H; [|discriminate]. destruct (matching_all _ _ _ _ _ _ _ _ m Hi Em Hpool ltac:(auto) Hnd Hty Hdir Hpass) as (m' & Hm' & Hr & _).
    assert (usable attr m' = true) as Hu'. { apply (usable_perm m); [|exact Hu]. unfold reordered in Hr. destruct (a_comm (attr p)); [exact Hr | rewrite Hr; reflexivity]. }
    destruct (mapM_In_r _ _ _ m' H) as (f & Hf & Ef); [apply filter_In; auto|]. apply mk_trans_eq in Ef as [_ ->]. exists m'. auto.
  Qed.
  (** matches are told apart by their names *)
  Lemma matching_pool all e md ts p direct flt ms : inv_all all -> get_matching_inputs all e md ts p direct flt = Ok ms ->
    exists fs0, (forall m, In m ms -> incl m fs0) /\ (forall f, In f fs0 -> fentity f = e) /\ (forall f g, In f fs0 -> In g fs0 -> fname f = fname g -> f = g).
  Proof.
    intros Hi H. unfold M_DFS.get_matching_inputs in H. destruct (features_by_type all e md (Some ts)) as [fs|] eqn:Ef; cbn [bind] in H; [|discriminate].
    destruct (by_type_pool _ _ _ _ _ Hi Ef) as (P1 & P2 & P3). exists (filter flt fs). split; [|split; [intros f Hf; apply filter_In in Hf as [Hf _]; apply P3; exact Hf | intros f g Hf Hg; apply filter_In in Hf as [Hf _]; apply filter_In in Hg as [Hg _]; apply P2; assumption]].
    destruct (match_inputs _ _ _ _ _ _ _ _ _) as [ms1|] eqn:Em; cbn [bind] in H; [|discriminate]. intros m Hm. destruct (filter_matches_In _ _ _ _ _ _ _ _ _ H Hm) as [_ (m1 & Hm1 & Hinc)].
    assert (In m1 ms1) as Hm1' by (destruct direct; [apply filter_In in Hm1; tauto | exact Hm1]). intros x Hx. apply (inputs_incl _ _ _ _ _ ordF_perm _ _ _ _ _ _ Em Hm1'). exact (Permutation_in _ Hinc Hx).
  Qed.
  (** the grouping features kept *)
  Lemma group_kept os e gs gs' g : (forall f h, In f gs -> In h gs -> fname f = fname h -> f = h) -> (forall f, In f gs -> fentity f = e) ->
    filter_matches_by_options rels p_ret vtypes (map (fun g => [g]) gs) os true false = Ok gs' -> In g gs -> is_valid_match rels p_ret vtypes os true [g] = true -> In [g] gs'.
  Proof.
    intros Hun He H Hg Hv. unfold filter_matches_by_options in H. set (ch := flat_map (choose_match rels p_ret vtypes os true false) (map (fun g => [g]) gs)) in *.
    assert (gs' = isort (match_leb rels) (dedup_by (tuple_eq rels) [] ch)) as -> by (destruct (map (fun g => [g]) gs), os; try discriminate H; injection H as <-; reflexivity).
    assert (In [g] ch) as Hc. { apply in_flat_map. exists [g]. split; [apply in_map_iff; exists g; auto|]. unfold choose_match. rewrite Hv. left. reflexivity. }
    destruct (dedup_cover (tuple_eq rels) [] ch [g] Hc) as (b & [[]|Hb] & Eb). apply (Permutation_in _ (Permutation_sym (isort_perm _ _))). enough ([g] = b) as -> by exact Hb. destruct Eb as [Eb|Eb]; [exact Eb|].
    pose proof (dedup_incl _ _ _ _ Hb) as Hb'. subst ch. apply in_flat_map in Hb' as (x & Hx & Hb'). apply in_map_iff in Hx as (h & <- & Hh). unfold choose_match in Hb'. destruct (is_valid_match rels p_ret vtypes os true [h]); [|destruct Hb']. destruct Hb' as [<-|[]].
    unfold tuple_eq in Eb. cbn [list_eqb] in Eb. rewrite andb_true_r in Eb. apply String.eqb_eq in Eb. unfold fkey in Eb. rewrite (He g Hg), (He h Hh) in Eb. f_equal. apply Hun; [exact Hg | exact Hh|]. apply (app_tail_inj _ _ e). exact Eb.
  Qed.
  Lemma group_step_all all e md direct p fs ts rest m g : inv_all all -> group_step vtypes rels p_ret p_inputs attr lower ordF A G all e md direct p = Ok fs ->
    p_inputs p = Some (ts :: rest) -> ignore_entity_for_primitive (opts p) e true = false ->
    (forall l, features_by_type all e (lower_depth md) (Some ts) = Ok l -> incl m l) -> NoDup m -> Forall2 (fun f ty => issub (ftype f) ty = true) m ts ->
    (direct = true -> exists f, In f m /\ is_direct f = true) -> all_pass rels (opts p) m -> usable attr m = true ->
    (forall ts l, (existsb (fun o => has_key e (o_inc_gv o)) (opts p) = false -> ts = Some [YId]) -> (existsb (fun o => has_key e (o_inc_gv o)) (opts p) = true -> ts = None) -> features_by_type all e (lower_depth md) ts = Ok l -> In g l) ->
    is_valid_match rels p_ret vtypes (opts p) true [g] = true ->
    exists m', In (FGroup p m' g None) fs /\ reordered (a_comm (attr p)) m m'.
  Proof.
    intros Hi H Hsig Hig Hpool Hnd Hty Hdir Hpass Hu Hg Hgv. unfold group_step in H. rewrite Hig in H. unfold dfs_types in H. rewrite Hsig in H. cbn [bind] in H.
    destruct (get_matching_inputs _ _ _ _ _ _ _) as [ms|] eqn:Em; cbn [bind] in H; [|discriminate]. destruct (matching_all _ _ _ _ _ _ _ _ m Hi Em Hpool ltac:(auto) Hnd Hty ltac:(discriminate) Hpass) as (m' & Hm' & Hr & _).
    assert (Permutation m' m) as Hp by (unfold reordered in Hr; destruct (a_comm (attr p)); [exact Hr | rewrite Hr; reflexivity]). pose proof (usable_perm m m' Hp Hu) as Hu'.
    destruct (features_by_type _ _ _ _) as [gs|] eqn:Eg; cbn [bind] in H; [|discriminate]. assert (In g gs) as Hg1 by (apply (Hg _ gs) in Eg; [exact Eg | intros Ex; rewrite Ex; reflexivity | intros Ex; rewrite Ex; reflexivity]). destruct (by_type_pool _ _ _ _ _ Hi Eg) as (_ & P2 & P3).
    destruct (filter_matches_by_options _ _ _ _ _ _ _) as [gs'|] eqn:Egs; cbn [bind] in H; [|discriminate]. pose proof (group_kept _ e gs gs' g P2 (fun f Hf => proj1 (P3 f Hf)) Egs Hg1 Hgv) as Hg'.
    destruct (mapM _ (filter (usable attr) ms)) as [fss|] eqn:Efs; cbn [bind] in H; [|discriminate]. injection H as <-. destruct (mapM_In_r _ _ _ m' Efs) as (fs1 & Hfs1 & E1); [apply filter_In; auto|].
    destruct (mapM_In_r _ _ _ [g] E1) as (f & Hf & Ef).
    - apply filter_In. split; [exact Hg'|]. apply negb_true_iff. destruct direct; [|reflexivity]. cbn [andb]. apply negb_false_iff, existsb_exists. destruct (Hdir eq_refl) as (x & Hx & Dx). exists x. split; [eapply Permutation_in; [symmetry; exact Hp | exact Hx] | exact Dx].
    - apply mk_group_eq in Ef as ->. exists m'. split; [|exact Hr]. apply in_concat. exists fs1. auto.
  Qed.
  Lemma stacking_all p m : (forall b, In b m -> stacks attr subc p b /\ fprim_of_ex attr b = None) -> check_stacking attr subc p m = Ok true.
  Proof.
    intros H. unfold check_stacking. assert (forall P, (forall b, In b m -> P b = false) -> existsb P m = false) as X by (intros P HP; apply not_true_is_false; intros E; apply existsb_exists in E as (b & Hb & E); rewrite (HP b Hb) in E; discriminate).
    assert ((match a_self (attr p) with Some false => existsb (fun f => prim_isa attr subc f [a_class (attr p)]) m | _ => false end) = false) as ->.
    { destruct (a_self (attr p)) as [[|]|] eqn:E; try reflexivity. apply X. intros b Hb. destruct (H b Hb) as [(_ & H2 & _) _]. apply not_true_is_false. intros Ei. apply (H2 E). cbn [prim_isa existsb] in Ei. rewrite orb_false_r in Ei. exact Ei. }
    assert ((match a_on_ex (attr p) with Some l => existsb (fun f => prim_isa attr subc f l) m | None => false end) = false) as ->.
    { destruct (a_on_ex (attr p)) as [l|] eqn:E; [|reflexivity]. apply X. intros b Hb. destruct (H b Hb) as [(_ & _ & H3 & _) _]. apply not_true_is_false. intros Ei. apply existsb_exists in Ei as (c & Hc & Ei). apply (H3 l c E Hc). exact Ei. }
    rewrite (X (fun f => Nat.ltb 1 (fnout f))) by (intros b Hb; destruct (H b Hb) as [(H1 & _) _]; apply Nat.ltb_ge; exact H1).
    rewrite (X (fun f => match fprim_of_ex attr f with Some _ => true | None => false end)) by (intros b Hb; destruct (H b Hb) as [_ ->]; reflexivity).
    f_equal. apply forallb_forall. intros b Hb. destruct (H b Hb) as [(_ & _ & _ & H4) _]. destruct (a_on (attr p)) as [l|] eqn:E; [|apply orb_true_r]. destruct (H4 l eq_refl) as [[Es Hc]|[(c & Hc & Hcc)|Hof]].
    - rewrite Es. cbn [prim_isa existsb]. unfold computed_by_class in Hc. unfold fprim_class. rewrite Hc. reflexivity.
    - apply orb_true_iff. right. apply orb_true_iff. left. apply existsb_exists. exists c. auto.
    - apply orb_true_iff. right. apply orb_true_iff. right. unfold fprim_of. destruct (fprim b) as [q|]; [|reflexivity]. destruct (a_of (attr q)) as [ks|] eqn:Ek; [|reflexivity]. apply existsb_exists. exists (a_class (attr p)). split; [apply (Hof q ks eq_refl Ek) | apply Nat.eqb_refl].
  Qed.

  (** ** What each phase adds *)
  Definition has (e : string) (f : feat) (all : afeats) : Prop := exists d, dget String.eqb e all = Some d /\ In (funique f) (map fst d).
  Definition transformed (f : feat) : Prop := match f with FTrans _ _ _ | FGroup _ _ _ _ => True | _ => False end.
  Definition copied (f : feat) : Prop := is_direct f = true /\ fnout f <= 1.
  Definition anyf (f : feat) : Prop := True.
  Lemma has_grows e Q e' f a b : grows e Q a b -> has e' f a -> has e' f b.
  Proof. intros Hg (d & Hd & Hk). destruct (grows_value _ _ _ _ _ _ Hg Hd) as (new & Hn). exists (d ++ new). split; [exact Hn|]. rewrite map_app. apply in_or_app. left. exact Hk. Qed.
  Lemma transform_grows e md direct s s' : inv s -> build_transform_features e md direct s = Ok s' ->
    grows e transformed (s_all s) (s_all s') /\ s_wheres s' = s_wheres s /\
    (forall p, In p (g_trans A) -> exists fs, trans_step vtypes rels p_ret p_inputs attr lower ordF A G (s_all s) e md direct p = Ok fs /\ forall f, In f fs -> fentity f = e /\ has e f (s_all s')) /\
    (forall p, In p (g_groups A) -> exists fs, group_step vtypes rels p_ret p_inputs attr lower ordF A G (s_all s) e md direct p = Ok fs /\ forall f, In f fs -> fentity f = e /\ has e f (s_all s')).
  Proof.
    intros [Hi Hw]. unfold M_DFS.build_transform_features. destruct (mapM _ (g_trans A)) as [t|] eqn:Et; cbn [bind]; [|discriminate]. destruct (mapM _ (g_groups A)) as [g|] eqn:Eg; cbn [bind]; [|discriminate].
    destruct (add_all _ _) as [all|] eqn:Ea; cbn [bind]; [|discriminate]. intros [= <-]. cbn [s_all s_wheres].
    assert (forall f, In f (List.concat t ++ List.concat g) -> fentity f = e /\ transformed f) as Hent.
    { intros f Hf. apply in_app_or in Hf as [Hf|Hf].
      + apply in_concat in Hf as (fs & Hfs & Hf). destruct (mapM_In _ _ _ _ Et Hfs) as (p & Hp & Ep). unfold trans_step in Ep. destruct (ignore_entity_for_primitive _ _ _) eqn:Eig; [injection Ep as <-; contradiction|].
        destruct (dfs_types _ _) as [ts|]; cbn [bind] in Ep; [|discriminate]. destruct (get_matching_inputs _ _ _ _ _ _ _) as [ms|] eqn:Em; cbn [bind] in Ep; [|discriminate].
        destruct (mapM_In _ _ _ _ Ep Hf) as (m & Hm & Ef). apply filter_In in Hm as [Hm Hu]. destruct (matching_pool _ _ _ _ _ _ _ _ Hi Em) as (fs0 & Q1 & Q2 & _). apply mk_trans_eq in Ef as [Hne ->]. split; [|exact I]. cbn [fentity]. destruct m as [|b m]; [congruence|]. apply Q2, (Q1 _ Hm). left. reflexivity.
      + apply in_concat in Hf as (fs & Hfs & Hf). destruct (mapM_In _ _ _ _ Eg Hfs) as (p & Hp & Ep). unfold group_step in Ep. destruct (ignore_entity_for_primitive _ _ _) eqn:Eig; [injection Ep as <-; contradiction|].
        destruct (dfs_types _ _) as [ts|]; cbn [bind] in Ep; [|discriminate]. destruct (get_matching_inputs _ _ _ _ _ _ _) as [ms|] eqn:Em; cbn [bind] in Ep; [|discriminate].
        destruct (features_by_type _ _ _ _) as [gs|] eqn:Egs; cbn [bind] in Ep; [|discriminate]. destruct (filter_matches_by_options _ _ _ _ _ _ _) as [gs'|] eqn:Egf; cbn [bind] in Ep; [|discriminate].
        destruct (mapM _ (filter (usable attr) ms)) as [fss|] eqn:Efs; cbn [bind] in Ep; [|discriminate]. injection Ep as <-. apply in_concat in Hf as (fs' & Hfs' & Hf). destruct (mapM_In _ _ _ _ Efs Hfs') as (m & Hm & Em'). apply filter_In in Hm as [Hm Hu].
        destruct (mapM_In _ _ _ _ Em' Hf) as (gt & Hgt & Eg'). apply filter_In in Hgt as [Hgt _]. destruct (filter_matches_In _ _ _ _ _ _ _ _ _ Egf Hgt) as [_ (gm & Hgm & Hgi)]. apply in_map_iff in Hgm as (g0 & <- & Hg0). destruct gt as [|g1 gt]; [discriminate|].
        assert (g1 = g0) as -> by (destruct (Permutation_in _ Hgi (or_introl eq_refl)) as [<-|[]]; reflexivity). apply mk_group_eq in Eg' as ->. split; [|exact I]. cbn [fentity]. destruct m as [|b m].
        * destruct (by_type_pool _ _ _ _ _ Hi Egs) as (_ & _ & P3). apply P3. exact Hg0.
        * destruct (matching_pool _ _ _ _ _ _ _ _ Hi Em) as (fs0 & Q1 & Q2 & _). apply Q2, (Q1 _ Hm). left. reflexivity. }
    destruct (add_grows e transformed _ _ _ Hent Ea) as [Hg Hp]. split; [exact Hg|]. split; [reflexivity|]. split; intros p Hin.
    - destruct (mapM_In_r _ _ _ p Et Hin) as (fs & Hfs & E). exists fs. split; [exact E|]. intros f Hf. assert (In f (List.concat t ++ List.concat g)) as Hf' by (apply in_or_app; left; apply in_concat; eauto). split; [apply Hent; exact Hf' | apply Hp; exact Hf'].
    - destruct (mapM_In_r _ _ _ p Eg Hin) as (fs & Hfs & E). exists fs. split; [exact E|]. intros f Hf. assert (In f (List.concat t ++ List.concat g)) as Hf' by (apply in_or_app; right; apply in_concat; eauto). split; [apply Hent; exact Hf' | apply Hp; exact Hf'].
  Qed.
  Lemma forward_grows r md s s' : inv s -> build_forward_features [(true, r)] md s = Ok s' ->
    grows (r_ce r) copied (s_all s) (s_all s') /\ s_wheres s' = s_wheres s /\
    exists fs, features_by_type (s_all s) (r_pe r) md None = Ok fs /\ forall f, In f fs -> feature_in_relationship_path [(true, r)] f = false -> has (r_ce r) (FDirect r f None) (s_all s').
  Proof.
    intros [Hi _]. unfold M_DFS.build_forward_features. destruct (features_by_type _ _ _ _) as [fs|] eqn:Ef; cbn [bind]; [|discriminate]. destruct (mapM _ _) as [ds|] eqn:Ed; cbn [bind]; [|discriminate].
    destruct (add_all _ _) as [all|] eqn:Ea; cbn [bind]; [|discriminate]. intros [= <-]. cbn [s_all s_wheres].
    edestruct (add_grows (r_ce r) copied) as [Hg Hp]; [|exact Ea|]; cycle 1.
    - split; [exact Hg|]. split; [reflexivity|]. exists fs. split; [reflexivity|]. intros f Hf Hlk. destruct (mapM_In_r _ _ _ f Ed) as (x & Hx & Ex); [apply filter_In; rewrite Hlk; auto|]. apply mk_direct_eq in Ex as ->. apply Hp. exact Hx.
    - intros f Hf. destruct (mapM_In _ _ _ _ Ed Hf) as (b & Hb & E). apply mk_direct_eq in E as ->. apply filter_In in Hb as [Hb _]. split; [reflexivity|]. split; [reflexivity|]. destruct (by_type_pool _ _ _ _ _ Hi Ef) as (_ & _ & P3). cbn [fnout]. apply P3. exact Hb.
  Qed.
  Lemma agg_one_grows e ce path p s m s' : backward_chain rels e path ce -> path <> [] -> agg_one p path ce s m = Ok s' ->
    grows e anyf (s_all s) (s_all s') /\ s_wheres s' = s_wheres s /\
    (check_stacking attr subc p m = Ok true -> exists u, has e (FAgg p m path u None None None) (s_all s')).
  Proof.
    intros Hc Hne. assert (match path with r :: _ => r_pe r | [] => ""%string end = e) as He by (destruct path as [|r q]; [congruence|]; inversion Hc; subst; congruence).
    unfold M_DFS.agg_one. destruct (check_stacking _ _ _ _) as [ok|] eqn:Ek; cbn [bind]; [|discriminate]. destruct ok; cbn [negb]; [|intros [= <-]; split; [apply grows_refl | split; [reflexivity | discriminate]]].
    destruct (mk_agg p m path None None None) as [f|] eqn:Ef; cbn [bind]; [|discriminate]. destruct (handle_new_feature f (s_all s)) as [all|] eqn:Ea; cbn [bind]; [|discriminate].
    apply mk_agg_eq in Ef as [_ (u & ->)]. destruct (handle_grows _ _ _ Ea) as [Hg Hh]. cbn [fentity] in Hg, Hh. rewrite He in Hg, Hh. apply (grows_weaken _ _ anyf) in Hg; [|intros; exact I].
    destruct (Nat.leb _ _); [intros [= <-]; split; [exact Hg | split; [reflexivity | intros _; exists u; exact Hh]]|]. destruct (negb _); [intros [= <-]; split; [exact Hg | split; [reflexivity | intros _; exists u; exact Hh]]|].
    destruct (mapM _ _) as [fs|] eqn:Efs; cbn [bind]; [|discriminate]. destruct (add_all fs all) as [all'|] eqn:Ea'; cbn [bind]; [|discriminate]. intros [= <-]. cbn [s_all s_wheres].
    edestruct (add_grows e anyf) as [Hg' Hp]; [|exact Ea'|]; cycle 1.
    - split; [eapply grows_trans; eassumption|]. split; [reflexivity|]. intros _. exists u. apply (has_grows _ _ _ _ _ _ Hg'). exact Hh.
    - intros x Hx. destruct (mapM_In _ _ _ _ Efs Hx) as (w & _ & Ex). apply mk_agg_eq in Ex as [_ (u' & ->)]. split; [exact He | exact I].
  Qed.
  Lemma grows_foldM {X} e (Q : feat -> Prop) (f : state -> X -> res state) l : (forall a s s', In a l -> f s a = Ok s' -> grows e Q (s_all s) (s_all s')) -> forall s s', foldM f l s = Ok s' -> grows e Q (s_all s) (s_all s').
  Proof.
    induction l as [|a l IH]; intros H s s'; cbn [foldM]; [intros [= <-]; apply grows_refl|]. destruct (f s a) as [s1|] eqn:E; cbn [bind]; [|discriminate]. intros E1. eapply grows_trans; [eapply (H a); [left; reflexivity | exact E]|]. apply IH; [|exact E1]. intros b s2 s3 Hb. apply H. right. exact Hb.
  Qed.
  Lemma agg_grows e ce path md s s' : backward_chain rels e path ce -> path <> [] -> build_agg_features e ce (map (fun r => (false, r)) path) md s = Ok s' -> grows e anyf (s_all s) (s_all s').
  Proof.
    intros Hc Hne. unfold M_DFS.build_agg_features. apply grows_foldM. intros p s1 s2 _ E. destruct (ignore_entity_for_primitive _ _ _) eqn:Eig; [injection E as <-; apply grows_refl|].
    destruct (dfs_types _ _) as [ts|]; cbn [bind] in E; [|discriminate]. destruct (get_matching_inputs _ _ _ _ _ _ _) as [ms|] eqn:Em; cbn [bind] in E; [|discriminate]. destruct (filter_matches_by_options _ _ _ _ _ _ _) as [ms'|] eqn:Ef; cbn [bind] in E; [|discriminate].
    assert (map snd (map (fun r : relationship => (false, r)) path) = path) as Epath by (rewrite map_map; apply map_id). rewrite Epath in E.
    revert E. apply grows_foldM. intros m s3 s4 _ E. apply (agg_one_grows e ce path p s3 m s4 Hc Hne E).
  Qed.
  Lemma identity_grows e all all' : inv_all all' -> add_identity_features variables vtypes rels A G e (dset String.eqb e [] all) = Ok all' ->
    (forall e', e' <> e -> dget String.eqb e' all' = dget String.eqb e' all) /\
    exists d, dget String.eqb e all' = Some d /\ (forall v, In v (variables e) -> ~ In v (dd_get e (g_ign_v G)) -> In (FIdent e v None) (vals d)) /\ forall f, In f (vals d) -> exists v, f = FIdent e v None.
  Proof.
    intros Hi. unfold add_identity_features. destruct (mapM _ _) as [ids|] eqn:Ei; cbn [bind]; [|discriminate]. rewrite no_seeds. cbn [filter]. destruct (add_all ids _) as [all1|] eqn:Ea; cbn [bind]; [|discriminate]. unfold M_DFS.add_all at 1. cbn [foldM]. intros [= ->].
    assert (forall f, In f ids -> fentity f = e /\ exists v, f = FIdent e v None) as Hids.
    { intros f Hf. destruct (mapM_In _ _ _ _ Ei Hf) as (v & Hv & Ev). unfold M_Serialize.mk_ident, is_var in Ev. destruct (vtypes e v) eqn:Et; [|discriminate]. injection Ev as <-. split; [reflexivity | eauto]. }
    destruct (add_grows e (fun f => exists v, f = FIdent e v None) _ _ _ Hids Ea) as [(H1 & H2 & _) Hk]. split; [intros e' He; rewrite H1 by exact He; apply (dget_dset_other _ String.eqb_spec); exact He|].
    destruct (H2 [] (dget_dset_same _ String.eqb_spec _ _ _)) as (d & Hd & HQ). cbn [app] in Hd. exists d. split; [exact Hd|]. split; [|intros f Hf; apply in_map_iff in Hf as ([n g] & <- & Hf); apply (HQ n g Hf)].
    intros v Hv Hg. destruct (mapM_In_r _ _ _ v Ei) as (x & Hx & Ex); [apply filter_In; split; [exact Hv | apply negb_true_iff, mem_str_nIn; exact Hg]|]. unfold M_Serialize.mk_ident, is_var in Ex. destruct (vtypes e v) eqn:Et; [|discriminate]. injection Ex as <-.
    destruct (Hk _ Hx) as (d' & Hd' & Hin). rewrite Hd in Hd'. injection Hd' as <-. apply in_map_iff in Hin as ([n g] & En & Hin). cbn [fst] in En. destruct (HQ n g Hin) as (w & ->). destruct (dict_ok _ _ _ Hi Hd) as (Hkey & _). specialize (Hkey _ Hin). cbn [fst snd] in Hkey. rewrite Hkey in En. cbn in En.
    assert (w = v) as -> by (apply (app_head_inj _ _ ": "), (app_head_inj _ _ e); exact En). apply in_map_iff. exists (n, FIdent e v None). auto.
  Qed.

  (** ** A run, step by step *)
  Definition visit (tf fuel : nat) (path : list edge) (md : option Z) (s : state) (ep : string * list edge) : res state :=
    if M_DFS.visited s (fst ep) || skip_entity A G path ep then Ok s else run_dfs tf fuel (fst ep) (path ++ snd ep) (lower_depth md) s.
  Definition agg_phase (e : string) (path : list edge) (md : option Z) (s : state) (ep : string * list edge) : res state :=
    if skip_entity A G path ep then Ok s else build_agg_features e (fst ep) (snd ep) md s.
  Definition fwd_phase (path : list edge) (md : option Z) (s : state) (ep : string * list edge) : res state :=
    if skip_entity A G path ep then Ok s else build_forward_features (snd ep) md s.
  Definition negative (md : option Z) : bool := match md with Some m => Z.ltb m 0 | None => false end.
  Record parts (tf fuel : nat) (e : string) (path : list edge) (md : option Z) (s s' : state) : Type := mkParts {
    q_all : afeats; q_back : list (string * list edge); q_1 : state; q_deep : list (string * list edge); q_2 : state; q_3 : state; q_fwd : list (string * list edge); q_4 : state; q_5 : state; q_6 : state;
    e_all : add_identity_features variables vtypes rels A G e (dset String.eqb e [] (s_all s)) = Ok q_all;
    e_back : get_backward_entities 1 rels e false = Ok q_back;
    e_1 : foldM (visit tf fuel path md) q_back (mkSt q_all (s_wheres s)) = Ok q_1;
    e_deep : get_backward_entities tf rels e true = Ok q_deep;
    e_2 : foldM (agg_phase e path md) q_deep q_1 = Ok q_2;
    e_3 : build_transform_features e md false q_2 = Ok q_3;
    e_fwd : get_forward_entities 1 rels e false = Ok q_fwd;
    e_4 : foldM (visit tf fuel path md) q_fwd q_3 = Ok q_4;
    e_5 : foldM (fwd_phase path md) q_fwd q_4 = Ok q_5;
    e_6 : build_transform_features e md true q_5 = Ok q_6;
    e_7 : build_where_clauses e q_6 = Ok s';
    i_0 : inv (mkSt q_all (s_wheres s)); i_1 : inv q_1; i_2 : inv q_2; i_3 : inv q_3; i_4 : inv q_4; i_5 : inv q_5; i_6 : inv q_6; i_7 : inv s' }.
  Lemma run_parts tf fuel e path md s s' : inv s -> mdle e md -> open_entity e -> negative md = false -> run_dfs tf (S fuel) e path md s = Ok s' -> parts tf fuel e path md s s'.
  Proof.
    intros Hs Hmd Ho Emd. unfold negative in Emd. cbn [M_DFS.run_dfs]. rewrite Emd.
    destruct (add_identity_features _ _ _ _ _ _ _) as [all|] eqn:Ea; cbn [bind]; [|discriminate].
    assert (inv (mkSt all (s_wheres s))) as H0.
    { split; [|apply Hs]. cbn [s_all]. eapply identity_inv; [|exact Ho | | exact Ea]; [|intros l Hl; unfold L_DFS.mdle in Hmd; rewrite Hl in Hmd; destruct Hmd as (m & -> & Hm); apply Z.ltb_ge in Emd; lia]. intros e' d Hd. destruct (dget_dset_cases _ _ _ _ _ Hd) as [[-> ->]|H]; [split; [exact Ho|]; split; [constructor | intros n f []] | apply Hs; exact H]. }
    fold (visit tf fuel path md). fold (agg_phase e path md). fold (fwd_phase path md).
    assert (forall l s1 s2, inv s1 -> foldM (visit tf fuel path md) l s1 = Ok s2 -> inv s2) as Hvisit.
    { intros l s1 s2 H1. apply foldM_inv; [|exact H1]. intros s3 ep s4 _ H3 E. unfold visit in E. destruct (M_DFS.visited _ _ || skip_entity A G path ep)%bool eqn:Ev; [injection E as <-; exact H3|]. apply orb_false_iff in Ev as [_ Ev].
      eapply run_inv; [exact ordF_perm | exact H3 | apply (mdle_lower A D e); exact Hmd | right; apply (skip_false A G path ep); exact Ev | exact E]. }
    destruct (get_backward_entities 1 rels e false) as [back|] eqn:Eb; cbn [bind]; [|discriminate].
    destruct (foldM (visit tf fuel path md) back _) as [s1|] eqn:E1; cbn [bind]; [|discriminate]. pose proof (Hvisit _ _ _ H0 E1) as I1.
    destruct (get_backward_entities tf rels e true) as [deep|] eqn:Edeep; cbn [bind]; [|discriminate].
    destruct (foldM (agg_phase e path md) deep s1) as [s2|] eqn:E2; cbn [bind]; [|discriminate].
    assert (inv s2) as I2.
    { generalize E2. apply foldM_inv; [|exact I1]. intros s3 [ce pth] s4 Hin H3 E. unfold agg_phase in E. destruct (skip_entity A G path (ce, pth)) eqn:Esk; [injection E as <-; exact H3|]. apply skip_false in Esk. cbn [fst snd] in *.
      apply (related_In r_pe r_ce false rels _ e deep Edeep) in Hin as (q & -> & Hq & Hch). eapply agg_inv; eassumption. }
    destruct (build_transform_features e md false s2) as [s3|] eqn:E3; cbn [bind]; [|discriminate]. assert (inv s3) as I3 by (eapply transform_inv; eassumption).
    destruct (get_forward_entities 1 rels e false) as [fwd|] eqn:Efwd; cbn [bind]; [|discriminate].
    destruct (foldM (visit tf fuel path md) fwd s3) as [s4|] eqn:E4; cbn [bind]; [|discriminate]. pose proof (Hvisit _ _ _ I3 E4) as I4.
    destruct (foldM (fwd_phase path md) fwd s4) as [s5|] eqn:E5; cbn [bind]; [|discriminate].
    assert (inv s5) as I5.
    { generalize E5. apply foldM_inv; [|exact I4]. intros s6 ep s7 Hin H6 E. unfold fwd_phase in E. destruct (skip_entity A G path ep) eqn:Esk; [injection E as <-; exact H6|]. apply skip_false in Esk. destruct (forward_one _ _ _ _ Efwd Hin) as (r & Hr & He & ->). cbn [fst snd] in *.
      eapply forward_inv; [exact H6 | rewrite He; exact Hmd | exact Hr | rewrite He; exact Ho | exact Esk | exact E]. }
    destruct (build_transform_features e md true s5) as [s6|] eqn:E6; cbn [bind]; [|discriminate]. assert (inv s6) as I6 by (eapply transform_inv; eassumption). intros E7.
    econstructor; try eassumption. eapply where_inv; eassumption.
  Qed.
  Lemma where_same e s s' : build_where_clauses e s = Ok s' -> s_all s' = s_all s.
  Proof. unfold M_DFS.build_where_clauses. destruct (mapM _ _) as [ws|]; cbn [bind]; [|discriminate]. intros [= <-]. reflexivity. Qed.
  Lemma backward_one e l : get_backward_entities 1 rels e false = Ok l -> forall r, In r rels -> r_pe r = e -> In (r_ce r, [(false, r)]) l.
  Proof.
    unfold get_backward_entities. cbn [related_entities]. destruct (mapM _ _) as [subs|] eqn:Es; cbn [bind]; [|discriminate]. intros [= <-] r Hr He. destruct (mapM_In_r _ _ _ r Es) as (x & Hx & Ex); [apply filter_In; split; [exact Hr | apply String.eqb_eq; exact He]|].
    cbn [bind map] in Ex. injection Ex as <-. apply in_concat. eexists. split; [exact Hx | left; reflexivity].
  Qed.
  Lemma forward_one' e l : get_forward_entities 1 rels e false = Ok l -> forall r, In r rels -> r_ce r = e -> In (r_pe r, [(true, r)]) l.
  Proof.
    unfold get_forward_entities. cbn [related_entities]. destruct (mapM _ _) as [subs|] eqn:Es; cbn [bind]; [|discriminate]. intros [= <-] r Hr He. destruct (mapM_In_r _ _ _ r Es) as (x & Hx & Ex); [apply filter_In; split; [exact Hr | apply String.eqb_eq; exact He]|].
    cbn [bind map] in Ex. injection Ex as <-. apply in_concat. eexists. split; [exact Hx | left; reflexivity].
  Qed.
  Lemma agg_phase_grows e path md deep s s' tf : get_backward_entities tf rels e true = Ok deep -> foldM (agg_phase e path md) deep s = Ok s' -> grows e anyf (s_all s) (s_all s').
  Proof.
    intros Hd. apply grows_foldM. intros [ce pth] s1 s2 Hin E. unfold agg_phase in E. destruct (skip_entity A G path (ce, pth)); [injection E as <-; apply grows_refl|]. cbn [fst snd] in E. apply (related_In r_pe r_ce false rels _ e deep Hd) in Hin as (q & -> & Hq & Hch). eapply agg_grows; eassumption.
  Qed.
  Lemma fwd_step_inv e path md fwd s ep s' : mdle e md -> open_entity e -> get_forward_entities 1 rels e false = Ok fwd -> In ep fwd -> inv s -> fwd_phase path md s ep = Ok s' -> inv s' /\ grows e copied (s_all s) (s_all s').
  Proof.
    intros Hmd Ho Hd Hin Hi E. unfold fwd_phase in E. destruct (skip_entity A G path ep) eqn:Esk; [injection E as <-; split; [exact Hi | apply grows_refl]|]. apply skip_false in Esk. destruct (forward_one _ _ _ _ Hd Hin) as (r & Hr & He & ->). cbn [fst snd] in *.
    split; [|rewrite <- He; apply (forward_grows r md s s' Hi E)]. eapply forward_inv; [exact Hi | rewrite He; exact Hmd | exact Hr | rewrite He; exact Ho | exact Esk | exact E].
  Qed.
  Lemma fwd_phase_grows e path md fwd s s' : mdle e md -> open_entity e -> inv s -> get_forward_entities 1 rels e false = Ok fwd -> foldM (fwd_phase path md) fwd s = Ok s' -> grows e copied (s_all s) (s_all s').
  Proof.
    intros Hmd Ho Hi Hd E. generalize E. enough (forall l s0 s1, incl l fwd -> inv s0 -> foldM (fwd_phase path md) l s0 = Ok s1 -> grows e copied (s_all s0) (s_all s1)) as X by (apply X; [apply incl_refl | exact Hi]).
    clear E. induction l as [|a l IH]; intros s0 s1 Hl Hi0; cbn [foldM]; [intros [= <-]; apply grows_refl|]. destruct (fwd_phase path md s0 a) as [s2|] eqn:E; cbn [bind]; [|discriminate]. intros E1. destruct (fwd_step_inv _ _ _ _ _ _ _ Hmd Ho Hd (Hl a (or_introl eq_refl)) Hi0 E) as [I2 G2].
    eapply grows_trans; [exact G2|]. apply IH; [intros x Hx; apply Hl; right; exact Hx | exact I2 | exact E1].
  Qed.

  (** ** Every visited entity has its columns, and its children are visited when the depth is unlimited *)
  Definition cols (all : afeats) : Prop := forall e d v, dget String.eqb e all = Some d -> In v (variables e) -> ~ In v (dd_get e (g_ign_v G)) -> In (FIdent e v None) (vals d).
  Definition known (e : string) (s : state) : Prop := dget String.eqb e (s_all s) <> None.
  Definition closed (s s' : state) : Prop := forall r, In r rels -> ~ known (r_pe r) s -> known (r_pe r) s' -> ~ In (r_ce r) (g_ign_e G) -> known (r_ce r) s'.
  Lemma cols_grows e Q a b : cols a -> grows e Q a b -> cols b.
  Proof.
    intros Hc (H1 & H2 & H3) e' d v Hd Hv Hg. destruct (String.eqb_spec e' e) as [->|He]; [|rewrite H1 in Hd by exact He; eapply Hc; eassumption].
    destruct (dget String.eqb e a) as [d0|] eqn:E0; [|rewrite (H3 eq_refl) in Hd; discriminate]. destruct (H2 d0 eq_refl) as (new & En & _). rewrite En in Hd. injection Hd as <-. rewrite map_app. apply in_or_app. left. eapply Hc; eassumption.
  Qed.
  Lemma known_grows e Q s s' x : grows e Q (s_all s) (s_all s') -> (known x s' <-> known x s).
  Proof.
    intros (H1 & H2 & H3). unfold known. destruct (String.eqb_spec x e) as [->|He]; [|rewrite H1 by exact He; reflexivity]. destruct (dget String.eqb e (s_all s)) as [d|]; [destruct (H2 d eq_refl) as (n & -> & _); split; discriminate | rewrite H3 by reflexivity; reflexivity].
  Qed.
  Definition frozen (s s' : state) : Prop := forall e d, dget String.eqb e (s_all s) = Some d -> dget String.eqb e (s_all s') = Some d.
  Definition ran (e : string) (md : option Z) (s s' : state) : Prop :=
    cols (s_all s') /\ (forall e' d, e' <> e -> dget String.eqb e' (s_all s) = Some d -> dget String.eqb e' (s_all s') = Some d) /\
    (negative md = false -> known e s') /\ (md = None -> g_paths A = [] -> closed s s').
  Definition runs_ok (tf fuel : nat) : Prop := forall e path md s s', inv s -> cols (s_all s) -> mdle e md -> open_entity e -> ~ known e s -> run_dfs tf fuel e path md s = Ok s' -> ran e md s s'.
  Lemma frozen_known s s' x : frozen s s' -> known x s -> known x s'.
  Proof. unfold known. intros H Hx. destruct (dget String.eqb x (s_all s)) as [d|] eqn:E; [|congruence]. rewrite (H x d E). discriminate. Qed.
  Lemma known_dec x s : known x s \/ ~ known x s.
  Proof. unfold known. destruct (dget String.eqb x (s_all s)); [left; discriminate | right; intros H; apply H; reflexivity]. Qed.
  Lemma visits_ok tf fuel e path md l : runs_ok tf fuel -> mdle e md -> forall s s', inv s -> cols (s_all s) -> foldM (visit tf fuel path md) l s = Ok s' ->
    cols (s_all s') /\ frozen s s' /\ (forall ep, In ep l -> skip_entity A G path ep = false -> negative (lower_depth md) = false -> known (fst ep) s') /\ (md = None -> g_paths A = [] -> closed s s').
  Proof.
    intros Hrun Hmd. induction l as [|ep l IH]; intros s s' Hi Hc; cbn [foldM].
    - intros [= <-]. split; [exact Hc|]. split; [intros e' d Hd; exact Hd|]. split; [intros ep []|]. intros _ _ r _ H1 H2. contradiction.
    - destruct (visit tf fuel path md s ep) as [s1|] eqn:E; cbn [bind]; [|discriminate]. intros E1.
      assert (inv s1 /\ cols (s_all s1) /\ frozen s s1 /\ (skip_entity A G path ep = false -> negative (lower_depth md) = false -> known (fst ep) s1) /\ (md = None -> g_paths A = [] -> closed s s1)) as (I1 & C1 & F1 & K1 & L1).
      { unfold visit in E. destruct (M_DFS.visited s (fst ep)) eqn:Ev; cbn [orb] in E.
        - injection E as <-. split; [exact Hi|]. split; [exact Hc|]. split; [intros e' d Hd; exact Hd|]. split; [intros _ _; unfold known, M_DFS.visited in *; destruct (dget _ _ _); [discriminate | discriminate Ev]|]. intros _ _ r _ H1 H2. contradiction.
        - assert (~ known (fst ep) s) as Hk by (unfold known, M_DFS.visited in *; destruct (dget _ _ _); [discriminate Ev | tauto]). destruct (skip_entity A G path ep) eqn:Esk.
          + injection E as <-. split; [exact Hi|]. split; [exact Hc|]. split; [intros e' d Hd; exact Hd|]. split; [discriminate|]. intros _ _ r _ H1 H2. contradiction.
          + assert (open_entity (fst ep)) as Ho by (right; apply (skip_false A G path ep); exact Esk). pose proof (mdle_lower A D e (fst ep) md Hmd) as Hmd'. split; [eapply run_inv; eassumption|].
            destruct (Hrun _ _ _ _ _ Hi Hc Hmd' Ho Hk E) as (R1 & R2 & R3 & R4). split; [exact R1|]. split; [|split; [intros _; exact R3 | intros ->; apply R4; reflexivity]]. intros e' d Hd. apply R2; [|exact Hd]. intros ->. apply Hk. unfold known. rewrite Hd. discriminate. }
      destruct (IH s1 s' I1 C1 E1) as (C2 & F2 & K2 & L2). split; [exact C2|]. split; [intros e' d Hd; apply F2, F1; exact Hd|]. split.
      + intros ep' [<-|Hin] Hsk Hn; [apply (frozen_known _ _ _ F2), K1; assumption | apply K2; assumption].
      + intros Hn Hp r Hr H1 H2 Hg. destruct (known_dec (r_pe r) s1) as [H3|H3]; [apply (frozen_known _ _ _ F2), (L1 Hn Hp r); assumption | apply (L2 Hn Hp r); assumption].
  Qed.
  Lemma run_all tf fuel : runs_ok tf fuel.
  Proof.
    induction fuel as [|fuel IH]; intros e path md s s' Hs Hc Hmd Ho Hk E.
    - cbn [M_DFS.run_dfs] in E. fold (negative md) in E. destruct (negative md) eqn:En; [|discriminate]. injection E as <-. split; [exact Hc|]. split; [auto|]. split; [congruence|]. intros ->. discriminate.
    - destruct (negative md) eqn:En.
      { unfold negative in En. cbn [M_DFS.run_dfs] in E. rewrite En in E. injection E as <-. split; [exact Hc|]. split; [auto|]. split; [unfold negative; congruence|]. intros ->. discriminate. }
      destruct (run_parts _ _ _ _ _ _ _ Hs Hmd Ho En E) as [all back s1 deep s2 s3 fwd s4 s5 s6 Eall Eb E1 Ed E2 E3 Ef E4 E5 E6 E7 I0 I1 I2 I3 I4 I5 I6 I7].
      destruct (identity_grows _ _ _ (proj1 I0) Eall) as [Hother (d0 & Hd0 & Hcols & _)]. cbn [s_all] in Hother, Hd0.
      assert (cols all) as C0. { intros e' d v Hd Hv Hg. destruct (String.eqb_spec e' e) as [->|He]; [rewrite Hd0 in Hd; injection Hd as <-; apply Hcols; assumption | rewrite Hother in Hd by exact He; eapply Hc; eassumption]. }
      destruct (visits_ok tf fuel e path md back IH Hmd (mkSt all (s_wheres s)) s1 I0 C0 E1) as (C1 & F1 & K1 & L1). cbn [s_all] in *.
      pose proof (agg_phase_grows _ _ _ _ _ _ _ Ed E2) as G2. destruct (transform_grows _ _ _ _ _ I2 E3) as (G3 & _). pose proof (cols_grows _ _ _ _ C1 G2) as C2. pose proof (cols_grows _ _ _ _ C2 G3) as C3.
      destruct (visits_ok tf fuel e path md fwd IH Hmd s3 s4 I3 C3 E4) as (C4 & F4 & K4 & L4). pose proof (fwd_phase_grows _ _ _ _ _ _ Hmd Ho I4 Ef E5) as G5. pose proof (cols_grows _ _ _ _ C4 G5) as C5. destruct (transform_grows _ _ _ _ _ I5 E6) as (G6 & _). pose proof (cols_grows _ _ _ _ C5 G6) as C6.
      pose proof (where_same _ _ _ E7) as W.
      assert (forall x, known x s1 -> known x s') as Up1. { intros x Hx. unfold known. rewrite W. fold (known x s6). apply (known_grows _ _ _ _ x G6), (known_grows _ _ _ _ x G5), (frozen_known _ _ _ F4), (known_grows _ _ _ _ x G3), (known_grows _ _ _ _ x G2). exact Hx. }
      assert (forall x, known x s4 <-> known x s') as Up4. { intros x. unfold known at 2. rewrite W. fold (known x s6). rewrite (known_grows _ _ _ _ x G6), (known_grows _ _ _ _ x G5). reflexivity. }
      assert (forall x, known x s3 <-> known x s1) as Up3. { intros x. rewrite (known_grows _ _ _ _ x G3), (known_grows _ _ _ _ x G2). reflexivity. }
      split; [rewrite W; exact C6|]. split; [|split].
      + intros e' d He Hd. rewrite W. rewrite (proj1 G6 e' He). rewrite (proj1 G5 e' He). apply F4. rewrite (proj1 G3 e' He). rewrite (proj1 G2 e' He). apply F1. cbn [s_all]. rewrite Hother by exact He. exact Hd.
      + intros _. apply Up1, (frozen_known _ _ _ F1). unfold known. cbn [s_all]. rewrite Hd0. discriminate.
      + intros -> Hp r Hr Hn1 Hn2 Hg. assert (forall p ep, ~ In (fst ep) (g_ign_e G) -> skip_entity A G p ep = false) as Hsk by (intros p ep H; unfold skip_entity; rewrite Hp, orb_false_r; apply mem_str_nIn; exact H).
        destruct (String.eqb_spec (r_pe r) e) as [He|He].
        * apply Up1. apply (K1 (r_ce r, [(false, r)]) (backward_one _ _ Eb r Hr He)); [apply Hsk; exact Hg | reflexivity].
        * destruct (known_dec (r_pe r) s1) as [H1|H1].
          -- apply Up1, (L1 eq_refl Hp r Hr); [|exact H1 | exact Hg]. unfold known. cbn [s_all]. rewrite Hother by exact He. exact Hn1.
          -- apply Up4, (L4 eq_refl Hp r Hr); [rewrite Up3; exact H1 | apply Up4; exact Hn2 | exact Hg].
  Qed.

  (** ** One aggregation *)
  Lemma agg_step_grows e ce path md p s s' : backward_chain rels e path ce -> path <> [] -> agg_step vtypes rels p_ret p_inputs attr subc lower ordF A G e ce (map (fun r => (false, r)) path) md s p = Ok s' -> grows e anyf (s_all s) (s_all s').
  Proof.
    intros Hc Hne E. unfold agg_step in E. destruct (ignore_entity_for_primitive _ _ _) eqn:Eig; [injection E as <-; apply grows_refl|].
    destruct (dfs_types _ _) as [ts|]; cbn [bind] in E; [|discriminate]. destruct (get_matching_inputs _ _ _ _ _ _ _) as [ms|] eqn:Em; cbn [bind] in E; [|discriminate]. destruct (filter_matches_by_options _ _ _ _ _ _ _) as [ms'|] eqn:Ef; cbn [bind] in E; [|discriminate].
    assert (map snd (map (fun r : relationship => (false, r)) path) = path) as Epath by (rewrite map_map; apply map_id). rewrite Epath in E.
    revert E. apply grows_foldM. intros m s3 s4 _ E. apply (agg_one_grows e ce path p s3 m s4 Hc Hne E).
  Qed.
  Lemma agg_all e ce path md s s' p ts rest m : inv s -> mdle e md -> open_entity e -> backward_chain rels e path ce -> path <> [] -> ~ In ce (g_ign_e G) ->
    build_agg_features e ce (map (fun r => (false, r)) path) md s = Ok s' -> In p (g_aggs A) -> p_inputs p = Some (ts :: rest) -> ignore_entity_for_primitive (opts p) ce false = false ->
    (forall s1 l, grows e anyf (s_all s) (s_all s1) -> inv s1 -> features_by_type (s_all s1) ce (lower_depth md) (Some ts) = Ok l -> incl m l) -> NoDup m -> Forall2 (fun f ty => issub (ftype f) ty = true) m ts ->
    (forall b, In b m -> direct_of_entity b e = false /\ feature_in_relationship_path (map (fun r => (false, r)) path) b = false) -> all_pass rels (opts p) m ->
    (forall b, In b m -> stacks attr subc p b /\ fprim_of_ex attr b = None) ->
    exists m' u, reordered (a_comm (attr p)) m m' /\ has e (FAgg p m' path u None None None) (s_all s').
  Proof.
    intros Hs Hmd Ho Hc Hne Hce H Hp Hsig Hig Hpool Hnd Hty Hflt Hpass Hst. set (edges := map (fun r : relationship => (false, r)) path) in *.
    assert (foldM (agg_step vtypes rels p_ret p_inputs attr subc lower ordF A G e ce edges md) (g_aggs A) s = Ok s') as H' by exact H. clear H. destruct (foldM_split _ _ p _ _ Hp H') as (l1 & l2 & s1 & s2 & El & H1 & Hstep & H2).
    assert (forall q, In q l1 -> In q (g_aggs A)) as Hl1 by (intros q Hq; rewrite El; apply in_or_app; left; exact Hq).
    assert (inv s1) as I1. { revert H1. apply foldM_inv; [|exact Hs]. intros s3 q s4 Hq H3 E3. eapply (agg_step_inv _ _ _ _ _ _ _ _ _ _ _ ordF_perm _ _ _ e ce path md s3 q); try eassumption. apply Hl1. exact Hq. }
    assert (grows e anyf (s_all s) (s_all s1)) as G1 by (revert H1; apply grows_foldM; intros q s3 s4 _ E3; eapply agg_step_grows; eassumption).
    assert (grows e anyf (s_all s2) (s_all s')) as G2 by (revert H2; apply grows_foldM; intros q s3 s4 _ E3; eapply agg_step_grows; eassumption).
    unfold agg_step in Hstep. rewrite Hig in Hstep. unfold dfs_types in Hstep. rewrite Hsig in Hstep. cbn [bind] in Hstep.
    destruct (get_matching_inputs _ _ _ _ _ _ _) as [ms|] eqn:Em; cbn [bind] in Hstep; [|discriminate].
    destruct (matching_all _ _ _ _ _ _ _ _ m (proj1 I1) Em (fun l => Hpool s1 l G1 I1)) as (m' & Hm' & Hr & Hpass'); [intros b Hb; destruct (Hflt b Hb) as [-> ->]; reflexivity | exact Hnd | exact Hty | discriminate | exact Hpass|].
    destruct (matching_pool _ _ _ _ _ _ _ _ (proj1 I1) Em) as (fs0 & Q1 & Q2 & Q3).
    destruct (filter_matches_by_options _ _ _ _ _ _ _) as [ms'|] eqn:Ef; cbn [bind] in Hstep; [|discriminate].
    assert (opts p <> []) as Hos by (intros E0; rewrite E0 in Ef; destruct ms; [destruct Hm' | discriminate Ef]).
    destruct (C31_tuples rels p_ret vtypes ms (opts p) false Hos) as (kept & Ek & K1 & K2 & _). rewrite Ek in Ef. injection Ef as ->. destruct (K2 m' Hm' Hpass') as (t & Ht & Et).
    assert (t = m') as ->. { apply (map_key_pool rels ce fs0 Q2 Q3); [|apply Q1; exact Hm' | exact Et]. destruct (K1 t Ht) as [_ (m1 & Hm1 & [->|[[=] _]])]. apply Q1. exact Hm1. }
    assert (map snd edges = path) as Epath by (unfold edges; rewrite map_map; apply map_id). rewrite Epath in Hstep. destruct (foldM_split _ _ m' _ _ Ht Hstep) as (k1 & k2 & s3 & s4 & _ & _ & Hone & Hrest).
    destruct (agg_one_grows e ce path p s3 m' s4 Hc Hne Hone) as (_ & _ & Hhas). destruct Hhas as (u & Hu).
    { apply stacking_all. intros b Hb. apply Hst. unfold reordered in Hr. destruct (a_comm (attr p)); [eapply Permutation_in; [exact Hr | exact Hb] | rewrite Hr in Hb; exact Hb]. }
    exists m', u. split; [exact Hr|]. apply (has_grows _ _ _ _ _ _ G2). assert (grows e anyf (s_all s4) (s_all s2)) as G4 by (revert Hrest; apply grows_foldM; intros x s5 s6 _ E5; apply (agg_one_grows e ce path p s5 x s6 Hc Hne E5)). apply (has_grows _ _ _ _ _ _ G4). exact Hu.
  Qed.
End DFS.
