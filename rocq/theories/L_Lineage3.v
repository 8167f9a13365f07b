(** Everything in a lineage graph comes from the lineage; layers. *)
From Coq Require Import Lia.
From Verif Require Import Base BaseFacts M_Schema M_Feature M_Lineage S_Lineage L_FeatureSet L_Lineage L_Lineage2.

Section Sound.
  Variables (rels : list relationship) (pname : prim -> string) (upper : string -> string).
  Notation key := (fkey rels).
  Notation node x := (col_node (fkey rels x)).
  Variable root : feat.

  (** the nodes drawn for a feature: its own row, its primitive, what it is grouped by *)
  Definition part_of (x : feat) (n : string) : Prop :=
    n = node x \/ (exists layer p, drawn_prim pname (whole x) = Some p /\ n = prim_node rels layer (whole x) p) \/
    (exists k, told_apart rels x k /\ n = group_node rels (whole x) k).

  Definition good_var k := exists x, lineage root x /\ ((k = key x /\ exists e v nm, x = FIdent e v nm) \/ link_column x k).
  Definition good_feat k := exists x, lineage root x /\ k = key x /\ ~ (exists e v nm, x = FIdent e v nm).
  Definition good_prim (q : string * string * nat * string) := exists x layer p, lineage root x /\ drawn_prim pname (whole x) = Some p /\
    q = (prim_node rels layer (whole x) p, upper p, layer, type_of (whole x)).
  Definition good_group (q : string * string) := exists x k, lineage root x /\ told_apart rels x k /\ q = (group_node rels (whole x) k, ("group by " ++ snd k)%string).
  Definition good_dotted (ab : string * string) := exists x k, lineage root x /\ told_apart rels x k /\
    ((fst ab = col_node k /\ part_of x (snd ab)) \/ (snd ab = col_node k /\ part_of x (fst ab))).
  Definition good_solid (ab : string * string) := exists x, lineage root x /\ part_of x (snd ab) /\
    (part_of x (fst ab) \/ exists y, uses x y /\ fst ab = node y).

  Record oks (st : lin) : Prop := mkOks {
    o_vars : forall k, In k (l_vars st) -> good_var k;
    o_feats : forall k, In k (l_feats st) -> good_feat k;
    o_prims : forall q, In q (l_prims st) -> good_prim q;
    o_groups : forall q, In q (l_groups st) -> good_group q;
    o_dotted : forall ab, In ab (l_dotted st) -> good_dotted ab;
    o_solid : forall ab, In ab (l_solid st) -> good_solid ab;
    o_ents : forall k, known k st -> In (fst k) (l_ents st);
    o_ents' : forall e, In e (l_ents st) -> exists x, lineage root x /\ (e = fentity x \/ exists k, link_column x k /\ e = fst k)
  }.

  Lemma oks0 : oks lin0.
  Proof. constructor; cbn [lin0 l_vars l_feats l_prims l_groups l_dotted l_solid l_ents]; try (intros ? []; fail). intros k [[]|[]]. Qed.

  Lemma oks_ent e st : oks st -> (exists x, lineage root x /\ (e = fentity x \/ exists k, link_column x k /\ e = fst k)) -> oks (add_ent e st) /\ In e (l_ents (add_ent e st)).
  Proof.
    intros [] He. unfold add_ent. destruct (mem_str e (l_ents st)) eqn:E; [split; [constructor; assumption | apply mem_str_In, E]|].
    split; [|cbn [l_ents]; apply in_or_app; right; left; reflexivity].
    constructor; cbn [l_vars l_feats l_prims l_groups l_dotted l_solid l_ents]; try assumption.
    - intros k Hk. apply in_or_app. left. apply o_ents0. exact Hk.
    - intros e' He'. apply in_app_iff in He'. destruct He' as [He'|[<-|[]]]; [exact (o_ents'0 e' He') | exact He].
  Qed.
  Lemma oks_var k st : oks st -> good_var k -> In (fst k) (l_ents st) -> oks (add_var k st).
  Proof.
    intros [] Hg Hk. constructor; cbn [add_var l_vars l_feats l_prims l_groups l_dotted l_solid l_ents]; try assumption.
    - intros k' [<-|H]; [exact Hg | exact (o_vars0 k' H)].
    - intros k' [[<-|H]|H]; [exact Hk | apply o_ents0; left; exact H | apply o_ents0; right; exact H].
  Qed.
  Lemma oks_feat k st : oks st -> good_feat k -> In (fst k) (l_ents st) -> oks (add_feat k st).
  Proof.
    intros [] Hg Hk. constructor; cbn [add_feat l_vars l_feats l_prims l_groups l_dotted l_solid l_ents]; try assumption.
    - intros k' [<-|H]; [exact Hg | exact (o_feats0 k' H)].
    - intros k' [H|[<-|H]]; [apply o_ents0; left; exact H | exact Hk | apply o_ents0; right; exact H].
  Qed.
  Lemma oks_mark x st : oks st -> lineage root x -> In (fentity x) (l_ents st) -> oks (mark rels x st).
  Proof.
    intros H Hx He. destruct x; cbn [mark];
      [apply oks_var; [exact H | eexists; split; [exact Hx | left; split; [reflexivity | do 3 eexists; reflexivity]] | exact He]
      |apply oks_feat; [exact H | eexists; split; [exact Hx | split; [reflexivity | intros (? & ? & ? & E); discriminate E]] | exact He]..].
  Qed.
  Ltac one H := intros ?q Hq; apply in_app_iff in Hq; destruct Hq as [Hq|[<-|[]]]; [exact (H _ Hq)|].
  Lemma oks_prim q st : oks st -> good_prim q -> oks (add_prim q st).
  Proof. intros [] Hg. constructor; cbn [add_prim l_vars l_feats l_prims l_groups l_dotted l_solid l_ents]; try assumption. one o_prims0. exact Hg. Qed.
  Lemma oks_group q st : oks st -> good_group q -> oks (add_group q st).
  Proof. intros [] Hg. constructor; cbn [add_group l_vars l_feats l_prims l_groups l_dotted l_solid l_ents]; try assumption. one o_groups0. exact Hg. Qed.
  Lemma oks_dotted a b st : oks st -> good_dotted (a, b) -> oks (add_dotted a b st).
  Proof. intros [] Hg. constructor; cbn [add_dotted l_vars l_feats l_prims l_groups l_dotted l_solid l_ents]; try assumption. one o_dotted0. exact Hg. Qed.
  Lemma oks_solid a b st : oks st -> good_solid (a, b) -> oks (add_solid a b st).
  Proof. intros [] Hg. constructor; cbn [add_solid l_vars l_feats l_prims l_groups l_dotted l_solid l_ents]; try assumption. one o_solid0. exact Hg. Qed.

  Lemma oks_group_step x k st base st' base' : lineage root x -> told_apart rels x k -> part_of x base ->
    group_step rels (whole x) k (st, base) = (st', base') -> oks st -> oks st' /\ part_of x base' /\ l_ents st' = l_ents st.
  Proof.
    intros Hx Hk Hb E Ho. unfold group_step in E. injection E as <- <-.
    assert (part_of x (group_node rels (whole x) k)) as Hp by (right; right; exists k; split; [exact Hk | reflexivity]).
    split; [|split; [exact Hp | reflexivity]].
    apply oks_solid; [apply oks_dotted; [apply oks_group; [exact Ho|]|]|].
    - exists x, k. split; [exact Hx | split; [exact Hk | reflexivity]].
    - exists x, k. split; [exact Hx | split; [exact Hk | left; split; [reflexivity | exact Hp]]].
    - exists x. split; [exact Hx | split; [exact Hb | left; exact Hp]].
  Qed.

  Lemma oks_links x : lineage root x -> forall es st base st' base',
    (forall fw r, In (fw, r) es -> link_column x (r_ce r, r_cv r)) ->
    fold_left (link_step rels (whole x)) es (st, base) = (st', base') -> part_of x base -> oks st -> oks st' /\ part_of x base'.
  Proof.
    intros Hx. induction es as [|[fw r] es IH]; intros st base st' base' Hes E Hb Ho.
    - cbn [fold_left] in E. injection E as <- <-. split; assumption.
    - cbn [fold_left] in E. destruct (link_step rels (whole x) (st, base) (fw, r)) as [st1 b1] eqn:E1.
      assert (oks st1 /\ part_of x b1) as [Ho1 Hb1].
      { pose proof (Hes fw r (or_introl eq_refl)) as Hk. unfold link_step in E1. cbn [fst snd] in E1.
        set (k := (r_ce r, r_cv r)) in *.
        assert (oks (add_var k (add_ent (r_ce r) st))) as Hs.
        { destruct (oks_ent (r_ce r) st Ho) as [Ho' He].
          { exists x. split; [exact Hx|]. right. exists k. split; [exact Hk | reflexivity]. }
          apply oks_var; [exact Ho' | exists x; split; [exact Hx | right; exact Hk] | exact He]. }
        destruct fw.
        - injection E1 as <- <-. split; [|exact Hb]. apply oks_dotted; [exact Hs|].
          exists x, k. split; [exact Hx|]. split; [left; exact Hk|]. right. split; [reflexivity | exact Hb].
        - destruct (oks_group_step x k _ _ _ _ Hx (or_introl Hk) Hb E1 Hs) as (H1 & H2 & _). split; assumption. }
      apply (IH st1 b1 st' base'); [intros fw' r' Hr; apply (Hes fw' r'); right; exact Hr | exact E | exact Hb1 | exact Ho1].
  Qed.

  Lemma oks_opening x layer st st' base : lineage root x -> opening rels pname upper x layer st = (st', base) -> oks st -> oks st' /\ part_of x base.
  Proof.
    intros Hx E Ho. unfold opening in E.
    destruct (prim_step rels pname upper (whole x) layer (node x) st) as [st1 b1] eqn:E1.
    assert (part_of x (node x)) as Hn by (left; reflexivity).
    assert (oks st1 /\ part_of x b1) as [Ho1 Hb1].
    { unfold prim_step in E1. destruct (drawn_prim pname (whole x)) as [p|] eqn:Ep; injection E1 as <- <-; [|split; assumption].
      assert (part_of x (prim_node rels layer (whole x) p)) as Hp by (right; left; exists layer, p; split; [exact Ep | reflexivity]).
      split; [|exact Hp]. apply oks_solid; [apply oks_prim; [exact Ho|]|].
      - exists x, layer, p. split; [exact Hx | split; [exact Ep | reflexivity]].
      - exists x. split; [exact Hx | split; [exact Hn | left; exact Hp]]. }
    apply (oks_links x Hx (fpath (whole x)) st1 b1 st' base); [|exact E | exact Hb1 | exact Ho1].
    intros fw r Hr. exists fw, r. split; [exact Hr | reflexivity].
  Qed.

  Lemma run_sound :
    (forall f layer st st' d, ex rels pname upper f layer st st' d -> lineage root f -> oks st -> oks st' /\ In (fentity f) (l_ents st')) /\
    (forall x layer st st' d, bd rels pname upper x layer st st' d -> lineage root x -> oks st -> oks st' /\ incl (l_ents st) (l_ents st')) /\
    (forall base layer ds st m st' m', vs rels pname upper base layer ds st m st' m' ->
       forall x, lineage root x -> part_of x base -> (forall d, In d ds -> uses x d) -> oks st -> oks st' /\ incl (l_ents st) (l_ents st')).
  Proof.
    assert (forall f layer st st' d, ex rels pname upper f layer st st' d -> incl (l_ents st) (l_ents st')) as Hgrow.
    { assert (forall x layer st st1 base, opening rels pname upper x layer st = (st1, base) -> incl (l_ents st) (l_ents st1)) as HO.
      { intros x layer st st1 base E. exact (g_ents _ _ (proj1 (opening_ok rels pname upper _ _ _ _ _ E))). }
      refine (proj1 (run_ind rels pname upper _ (fun _ _ st st' _ => incl (l_ents st) (l_ents st')) (fun _ _ _ st _ st' _ => incl (l_ents st) (l_ents st')) _ _ _ _ _ _)).
      - intros. apply (g_ents _ _ (grows_ent _ _)).
      - intros f layer st st' d _ _ IH. eapply incl_tran; [|exact IH]. exact (g_ents _ _ (grows_trans _ _ _ (grows_ent _ _) (grows_mark rels f _))).
      - intros x layer st st1 base st' d EO _ _ IH. exact (incl_tran (HO _ _ _ _ _ EO) IH).
      - intros x p bs g nm layer st st1 base sg dg st2 base2 st' d _ EO _ IHg EG _ IH.
        eapply incl_tran; [exact (HO _ _ _ _ _ EO)|]. eapply incl_tran; [exact IHg|].
        eapply incl_tran; [exact (g_ents _ _ (grows_mark rels g sg))|]. eapply incl_tran; [|exact IH].
        unfold group_step in EG. injection EG as <- <-. apply incl_refl.
      - intros. apply incl_refl.
      - intros base layer d ds st m st1 d1 st' m' _ IH1 _ IH2. exact (incl_tran IH1 IH2). }
    apply run_ind.
    - intros f layer st _ Hf Ho. apply oks_ent; [exact Ho|]. exists f. split; [exact Hf | left; reflexivity].
    - intros f layer st st' d _ _ IH Hf Ho.
      destruct (oks_ent (fentity f) st Ho) as [Ho' He]; [exists f; split; [exact Hf | left; reflexivity]|].
      destruct (IH Hf (oks_mark f _ Ho' Hf He)) as [H1 H2]. split; [exact H1|]. apply H2. apply (g_ents _ _ (grows_mark rels f _)). exact He.
    - intros x layer st st1 base st' d EO _ _ IH Hx Ho.
      destruct (oks_opening _ _ _ _ _ Hx EO Ho) as [Ho1 Hb].
      destruct (IH x Hx Hb (fun d H => H) Ho1) as [H1 H2]. split; [exact H1|].
      exact (incl_tran (g_ents _ _ (proj1 (opening_ok rels pname upper _ _ _ _ _ EO))) H2).
    - intros x p bs g nm layer st st1 base sg dg st2 base2 st' d Ex EO Hex IHg EG _ IH Hx Ho.
      destruct (oks_opening _ _ _ _ _ Hx EO Ho) as [Ho1 Hb].
      assert (forall z, In z (bs ++ [g]) -> uses x z) as HU.
      { intros z Hz. unfold uses. rewrite Ex. unfold fdeps. cbn [fbases fwhere]. rewrite app_nil_r. exact Hz. }
      assert (lineage root g) as Hg by (apply lineage_uses with x; [exact Hx | apply HU, in_or_app; right; left; reflexivity]).
      destruct (IHg Hg Ho1) as [Hog Heg].
      assert (told_apart rels x (key g)) as Ht by (right; exists g; split; [rewrite Ex; reflexivity | reflexivity]).
      destruct (oks_group_step x (key g) _ _ _ _ Hx Ht Hb EG (oks_mark g sg Hog Hg Heg)) as (Ho2 & Hb2 & He2).
      destruct (IH x Hx Hb2 (fun d H => HU d (remove_first_In _ _ _ H)) Ho2) as [H1 H2]. split; [exact H1|].
      eapply incl_tran; [exact (g_ents _ _ (proj1 (opening_ok rels pname upper _ _ _ _ _ EO)))|].
      eapply incl_tran; [exact (Hgrow _ _ _ _ _ Hex)|]. eapply incl_tran; [exact (g_ents _ _ (grows_mark rels g sg))|].
      rewrite He2 in H2. exact H2.
    - intros base layer st m x _ _ _ Ho. split; [exact Ho | apply incl_refl].
    - intros base layer d ds st m st1 d1 st' m' Hex IHd _ IH x Hx Hb Hds Ho.
      pose proof (Hds d (or_introl eq_refl)) as Hd.
      destruct (IHd (lineage_uses _ _ _ Hx Hd) Ho) as [Ho1 _].
      destruct (IH x Hx Hb) as [H1 H2]; [intros z Hz; apply Hds; right; exact Hz | |].
      + apply oks_solid; [exact Ho1|]. exists x. split; [exact Hx|]. split; [exact Hb|]. right. exists d. split; [exact Hd | reflexivity].
      + split; [exact H1|]. exact (incl_tran (Hgrow _ _ _ _ _ Hex) H2).
  Qed.

  (** layers: [own] is the primitive node of the feature explored *)
  Definition lay (q : string * string * nat * string) : nat := snd (fst q).
  Definition own (x : feat) (layer : nat) (q : string * string * nat * string) : Prop :=
    exists p, drawn_prim pname (whole x) = Some p /\ q = (prim_node rels layer (whole x) p, upper p, layer, type_of (whole x)).

  Lemma group_step_prims f k st base st' base' : group_step rels f k (st, base) = (st', base') -> l_prims st' = l_prims st.
  Proof. unfold group_step. intros E. injection E as <- <-. reflexivity. Qed.
  Lemma mark_prims f st : l_prims (mark rels f st) = l_prims st.
  Proof. destruct f; reflexivity. Qed.
  Lemma add_ent_prims e st : l_prims (add_ent e st) = l_prims st.
  Proof. unfold add_ent. destruct (mem_str e (l_ents st)); reflexivity. Qed.

  Lemma run_layers :
    (forall f layer st st' d, ex rels pname upper f layer st st' d ->
       forall q, In q (l_prims st') -> In q (l_prims st) \/ own f layer q \/ layer < lay q) /\
    (forall x layer st st' d, bd rels pname upper x layer st st' d ->
       forall q, In q (l_prims st') -> In q (l_prims st) \/ own x layer q \/ layer < lay q) /\
    (forall base layer ds st m st' m', vs rels pname upper base layer ds st m st' m' ->
       forall q, In q (l_prims st') -> In q (l_prims st) \/ layer < lay q).
  Proof.
    assert (forall x layer q, own x layer q -> lay q = layer) as Hown by (intros x layer q (p & _ & ->); reflexivity).
    apply run_ind.
    - intros f layer st _ q Hq. rewrite add_ent_prims in Hq. left. exact Hq.
    - intros f layer st st' d _ _ IH q Hq. specialize (IH q Hq). rewrite mark_prims, add_ent_prims in IH. exact IH.
    - intros x layer st st1 base st' d EO _ _ IH q Hq.
      destruct (opening_ok rels pname upper _ _ _ _ _ EO) as (_ & _ & _ & _ & _ & _ & HP).
      destruct (IH q Hq) as [H|H]; [|right; right; exact H]. destruct (HP q H) as [H'|H']; [left; exact H' | right; left; exact H'].
    - intros x p bs g nm layer st st1 base sg dg st2 base2 st' d _ EO _ IHg EG _ IH q Hq.
      destruct (opening_ok rels pname upper _ _ _ _ _ EO) as (_ & _ & _ & _ & _ & _ & HP).
      destruct (IH q Hq) as [H|H]; [|right; right; exact H].
      rewrite (group_step_prims _ _ _ _ _ _ EG), mark_prims in H.
      destruct (IHg q H) as [H1|[H1|H1]]; [|right; right; apply Hown in H1; lia | right; right; lia].
      destruct (HP q H1) as [H'|H']; [left; exact H' | right; left; exact H'].
    - intros base layer st m q Hq. left. exact Hq.
    - intros base layer d ds st m st1 d1 st' m' _ IHd _ IH q Hq.
      destruct (IH q Hq) as [H|H]; [|right; exact H]. cbn [add_solid l_prims] in H.
      destruct (IHd q H) as [H1|[H1|H1]]; [left; exact H1 | right; apply Hown in H1; lia | right; lia].
  Qed.

  Hypothesis Hgroup : no_groupby root.
  Hypothesis Hinputs : has_inputs root.

  Lemma run_depth :
    (forall f layer st st' d, ex rels pname upper f layer st st' d -> lineage root f ->
       layer <= d /\ forall q, In q (l_prims st') -> In q (l_prims st) \/ lay q < d) /\
    (forall x layer st st' d, bd rels pname upper x layer st st' d -> lineage root x ->
       layer <= d /\ forall q, In q (l_prims st') -> In q (l_prims st) \/ lay q < d) /\
    (forall base layer ds st m st' m', vs rels pname upper base layer ds st m st' m' -> (forall d, In d ds -> lineage root d) ->
       m <= m' /\ (ds <> [] -> layer < m') /\ forall q, In q (l_prims st') -> In q (l_prims st) \/ lay q < m').
  Proof.
    apply run_ind.
    - intros f layer st _ _. split; [lia|]. intros q Hq. rewrite add_ent_prims in Hq. left. exact Hq.
    - intros f layer st st' d _ _ IH Hf. destruct (IH Hf) as [H1 H2]. split; [exact H1|].
      intros q Hq. specialize (H2 q Hq). rewrite mark_prims, add_ent_prims in H2. exact H2.
    - intros x layer st st1 base st' d EO _ _ IH Hx.
      destruct (opening_ok rels pname upper _ _ _ _ _ EO) as (_ & _ & _ & _ & _ & _ & HP).
      destruct IH as (H1 & H2 & H3); [intros y Hy; exact (lineage_uses _ _ _ Hx Hy)|]. split; [exact H1|].
      intros q Hq. destruct (H3 q Hq) as [H|H]; [|right; exact H]. destruct (HP q H) as [H'|(p & Hp & ->)]; [left; exact H' | right].
      unfold lay. cbn [fst snd]. apply H2. destruct (Hinputs x Hx) as [Hd|(e & v & nm & E)]; [exact Hd|].
      rewrite E in Hp. discriminate Hp.
    - intros x p bs g nm layer st st1 base sg dg st2 base2 st' d Ex _ _ _ _ _ _ Hx. pose proof (Hgroup x Hx) as H. rewrite Ex in H. discriminate H.
    - intros base layer st m _. split; [lia|]. split; [intros H; destruct (H eq_refl)|]. intros q Hq. left. exact Hq.
    - intros base layer d ds st m st1 d1 st' m' _ IHd _ IH Hds.
      destruct (IHd (Hds d (or_introl eq_refl))) as [H1 H2].
      destruct IH as (H3 & _ & H4); [intros z Hz; apply Hds; right; exact Hz|].
      split; [lia|]. split; [intros _; lia|]. intros q Hq. destruct (H4 q Hq) as [H|H]; [|right; exact H].
      cbn [add_solid l_prims] in H. destruct (H2 q H) as [H'|H']; [left; exact H' | right; lia].
  Qed.
End Sound.
