(** What the recursion that draws a lineage graph keeps, adds and finishes. *)
From Coq Require Import Lia.
From Verif Require Import Base BaseFacts M_Schema M_Feature M_Lineage S_Lineage L_FeatureSet L_Lineage.

Definition known (k : string * string) (st : lin) : Prop := In k (l_vars st) \/ In k (l_feats st).

Record grows (a b : lin) : Prop := mkGrows {
  g_ents : incl (l_ents a) (l_ents b);
  g_vars : incl (l_vars a) (l_vars b);
  g_feats : incl (l_feats a) (l_feats b);
  g_prims : incl (l_prims a) (l_prims b);
  g_groups : incl (l_groups a) (l_groups b);
  g_dotted : incl (l_dotted a) (l_dotted b);
  g_solid : incl (l_solid a) (l_solid b)
}.

Lemma grows_refl a : grows a a.
Proof. constructor; apply incl_refl. Qed.
Lemma grows_trans a b c : grows a b -> grows b c -> grows a c.
Proof. intros [] []. constructor; eapply incl_tran; eassumption. Qed.
Ltac inc := first [apply incl_refl | apply incl_tl, incl_refl | apply incl_appl, incl_refl].
Lemma grows_ent e a : grows a (add_ent e a).
Proof. unfold add_ent. destruct (mem_str e (l_ents a)); [apply grows_refl|]. constructor; cbn [l_ents l_vars l_feats l_prims l_groups l_dotted l_solid]; inc. Qed.
Lemma grows_var k a : grows a (add_var k a). Proof. constructor; cbn [add_var l_ents l_vars l_feats l_prims l_groups l_dotted l_solid]; inc. Qed.
Lemma grows_feat k a : grows a (add_feat k a). Proof. constructor; cbn [add_feat l_ents l_vars l_feats l_prims l_groups l_dotted l_solid]; inc. Qed.
Lemma grows_prim k a : grows a (add_prim k a). Proof. constructor; cbn [add_prim l_ents l_vars l_feats l_prims l_groups l_dotted l_solid]; inc. Qed.
Lemma grows_group k a : grows a (add_group k a). Proof. constructor; cbn [add_group l_ents l_vars l_feats l_prims l_groups l_dotted l_solid]; inc. Qed.
Lemma grows_dotted x y a : grows a (add_dotted x y a). Proof. constructor; cbn [add_dotted l_ents l_vars l_feats l_prims l_groups l_dotted l_solid]; inc. Qed.
Lemma grows_solid x y a : grows a (add_solid x y a). Proof. constructor; cbn [add_solid l_ents l_vars l_feats l_prims l_groups l_dotted l_solid]; inc. Qed.

Lemma arrows_mono es es' a b : incl es es' -> arrows es a b -> arrows es' a b.
Proof.
  intros Hi. induction 1 as [a b H|a b c H _ IH]; [apply arrows_one, Hi, H|]. exact (arrows_more _ _ _ _ (Hi _ H) IH).
Qed.
Lemma arrows_trans es a b c : arrows es a b -> arrows es b c -> arrows es a c.
Proof. induction 1 as [a b H|a b d H _ IH]; intros Hc; [exact (arrows_more _ _ _ _ H Hc) | exact (arrows_more _ _ _ _ H (IH Hc))]. Qed.

(** the node is the other one or arrows lead to it *)
Definition leads_to (st : lin) (a b : string) : Prop := a = b \/ arrows (l_solid st) a b.
Lemma leads_to_mono st st' a b : grows st st' -> leads_to st a b -> leads_to st' a b.
Proof. intros G [->|H]; [left; reflexivity | right; exact (arrows_mono _ _ _ _ (g_solid _ _ G) H)]. Qed.
Lemma leads_to_step st a b c : In (a, b) (l_solid st) -> leads_to st b c -> arrows (l_solid st) a c.
Proof. intros H [<-|H']; [apply arrows_one, H | exact (arrows_more _ _ _ _ H H')]. Qed.

Section Complete.
  Variables (rels : list relationship) (pname : prim -> string) (upper : string -> string).
  Notation key := (fkey rels).
  Notation node x := (col_node (fkey rels x)).

  Lemma grows_mark f a : grows a (mark rels f a).
  Proof. destruct f; first [apply grows_var | apply grows_feat]. Qed.
  Lemma known_mark f a : known (key f) (mark rels f a).
  Proof. destruct f; [left | right..]; left; reflexivity. Qed.
  Lemma known_mono k a b : grows a b -> known k a -> known k b.
  Proof. intros G [H|H]; [left; exact (g_vars _ _ G _ H) | right; exact (g_feats _ _ G _ H)]. Qed.
  Lemma listed_known k st : listed k st = true <-> known k st.
  Proof. unfold listed, known. rewrite Bool.orb_true_iff, !mem_key_In. reflexivity. Qed.
  Lemma listed_unknown k st : listed k st = false <-> ~ known k st.
  Proof. rewrite <- listed_known. destruct (listed k st); split; congruence || (intros H; exfalso; apply H; reflexivity). Qed.
  Lemma known_dec k st : known k st \/ ~ known k st.
  Proof. destruct (listed k st) eqn:E; [left; apply listed_known, E | right; apply listed_unknown, E]. Qed.
  Lemma known_ent k e st : known k (add_ent e st) <-> known k st.
  Proof. unfold add_ent, known. destruct (mem_str e (l_ents st)); reflexivity. Qed.

  (** the column is linked by a dotted line to a node from which arrows lead to the feature *)
  Definition linked (st : lin) (k : string * string) (n : string) : Prop :=
    exists m, leads_to st m n /\ (In (m, col_node k) (l_dotted st) \/ In (col_node k, m) (l_dotted st)).

  Definition finished (st : lin) (x : feat) : Prop :=
    (forall y, uses x y -> known (key y) st /\ (fgroupby (whole x) = Some y \/ arrows (l_solid st) (node y) (node x))) /\
    (forall k, link_column x k -> In k (l_vars st) /\ linked st k (node x)) /\
    (forall p, drawn_prim pname (whole x) = Some p -> exists layer m, In (m, upper p, layer, type_of (whole x)) (l_prims st) /\ arrows (l_solid st) m (node x)) /\
    (forall g, fgroupby (whole x) = Some g -> linked st (key g) (node x)).

  Lemma linked_mono a b k n : grows a b -> linked a k n -> linked b k n.
  Proof.
    intros G (m & H1 & H2). exists m. split; [exact (leads_to_mono _ _ _ _ G H1)|].
    destruct H2 as [H2|H2]; [left | right]; exact (g_dotted _ _ G _ H2).
  Qed.
  Lemma finished_mono a b x : grows a b -> finished a x -> finished b x.
  Proof.
    intros G (H1 & H2 & H3 & H4). repeat apply conj.
    - intros y Hy. destruct (H1 y Hy) as [K A]. split; [exact (known_mono _ _ _ G K)|].
      destruct A as [A|A]; [left; exact A | right; exact (arrows_mono _ _ _ _ (g_solid _ _ G) A)].
    - intros k Hk. destruct (H2 k Hk) as [K A]. split; [exact (g_vars _ _ G _ K) | exact (linked_mono _ _ _ _ G A)].
    - intros p Hp. destruct (H3 p Hp) as (layer & m & Hm & A). exists layer, m.
      split; [exact (g_prims _ _ G _ Hm) | exact (arrows_mono _ _ _ _ (g_solid _ _ G) A)].
    - intros g Hg. exact (linked_mono _ _ _ _ G (H4 g Hg)).
  Qed.

  (** one group-by node *)
  Lemma group_step_ok f k st base st' base' n :
    group_step rels f k (st, base) = (st', base') -> leads_to st base n ->
    grows st st' /\ leads_to st' base' n /\ linked st' k n /\ l_vars st' = l_vars st /\ l_feats st' = l_feats st /\ l_prims st' = l_prims st.
  Proof.
    unfold group_step. intros E H. injection E as E1 E2.
    assert (grows st st') as G.
    { rewrite <- E1. eapply grows_trans; [apply grows_group|]. eapply grows_trans; [apply grows_dotted | apply grows_solid]. }
    assert (arrows (l_solid st') base' n) as HA.
    { eapply leads_to_step; [|exact (leads_to_mono _ _ _ _ G H)]. rewrite <- E1, <- E2. cbn [add_solid l_solid]. apply in_or_app. right. left. reflexivity. }
    split; [exact G|]. split; [right; exact HA|]. split; [|rewrite <- E1; repeat split].
    exists base'. split; [right; exact HA|]. right. rewrite <- E1, <- E2. cbn [add_solid add_dotted l_dotted]. apply in_or_app. right. left. reflexivity.
  Qed.

  Lemma links_ok f n : forall es st base st' base',
    fold_left (link_step rels f) es (st, base) = (st', base') -> leads_to st base n ->
    grows st st' /\ leads_to st' base' n /\
    (forall fw r, In (fw, r) es -> In (r_ce r, r_cv r) (l_vars st') /\ linked st' (r_ce r, r_cv r) n) /\
    l_feats st' = l_feats st /\ l_prims st' = l_prims st /\
    (forall k, In k (l_vars st') -> In k (l_vars st) \/ exists fw r, In (fw, r) es /\ k = (r_ce r, r_cv r)).
  Proof.
    induction es as [|[fw r] es IH]; intros st base st' base' E H.
    - cbn [fold_left] in E. injection E as <- <-. split; [apply grows_refl|]. split; [exact H|].
      split; [intros ? ? []|]. split; [reflexivity|]. split; [reflexivity|]. intros k Hk. left. exact Hk.
    - cbn [fold_left] in E. destruct (link_step rels f (st, base) (fw, r)) as [st1 base1] eqn:E1.
      assert (grows st st1 /\ leads_to st1 base1 n /\ In (r_ce r, r_cv r) (l_vars st1) /\ linked st1 (r_ce r, r_cv r) n /\
              l_feats st1 = l_feats st /\ l_prims st1 = l_prims st /\ (forall k, In k (l_vars st1) -> In k (l_vars st) \/ k = (r_ce r, r_cv r))) as (G1 & L1 & V1 & K1 & F1 & P1 & W1).
      { unfold link_step in E1. cbn [fst snd] in E1.
        set (k := (r_ce r, r_cv r)) in *. set (s := add_var k (add_ent (r_ce r) st)) in *.
        assert (grows st s) as Gs by (eapply grows_trans; [apply grows_ent | apply grows_var]).
        assert (l_feats s = l_feats st /\ l_prims s = l_prims st /\ l_vars s = k :: l_vars st) as (Hf & Hp & Hv).
        { unfold s, add_ent. destruct (mem_str (r_ce r) (l_ents st)); repeat split. }
        destruct fw.
        - injection E1 as <- <-. split; [eapply grows_trans; [exact Gs | apply grows_dotted]|].
          split; [exact (leads_to_mono _ _ _ _ (grows_trans _ _ _ Gs (grows_dotted _ _ _)) H)|].
          cbn [add_dotted l_vars l_feats l_prims]. rewrite Hv.
          split; [left; reflexivity|]. split; [|split; [exact Hf | split; [exact Hp|]]].
          + exists base. split; [exact (leads_to_mono _ _ _ _ (grows_trans _ _ _ Gs (grows_dotted _ _ _)) H)|].
            left. cbn [add_dotted l_dotted]. apply in_or_app. right. left. reflexivity.
          + intros k' [<-|Hk']; [right; reflexivity | left; exact Hk'].
        - destruct (group_step_ok _ _ _ _ _ _ n E1 (leads_to_mono _ _ _ _ Gs H)) as (G & L & K & V & F & P).
          split; [exact (grows_trans _ _ _ Gs G)|]. split; [exact L|]. rewrite V, F, P, Hv.
          split; [left; reflexivity|]. split; [exact K|]. split; [exact Hf|]. split; [exact Hp|].
          intros k' [<-|Hk']; [right; reflexivity | left; exact Hk']. }
      destruct (IH _ _ _ _ E L1) as (G & L & K & F & P & W).
      split; [exact (grows_trans _ _ _ G1 G)|]. split; [exact L|]. split; [|split; [congruence | split; [congruence|]]].
      + intros fw' r' [Hr|Hr]; [|exact (K fw' r' Hr)]. injection Hr as <- <-. split; [exact (g_vars _ _ G _ V1) | exact (linked_mono _ _ _ _ G K1)].
      + intros k Hk. destruct (W k Hk) as [Hk'|(fw' & r' & Hr & ->)]; [|right; exists fw', r'; split; [right; exact Hr | reflexivity]].
        destruct (W1 k Hk') as [Hk'' | ->]; [left; exact Hk'' | right; exists fw, r; split; [left; reflexivity | reflexivity]].
  Qed.

  Lemma prim_step_ok f layer n st st' base :
    prim_step rels pname upper f layer n st = (st', base) ->
    grows st st' /\ leads_to st' base n /\ l_vars st' = l_vars st /\ l_feats st' = l_feats st /\
    (forall p, drawn_prim pname f = Some p -> exists m, In (m, upper p, layer, type_of f) (l_prims st') /\ arrows (l_solid st') m n) /\
    (forall q, In q (l_prims st') -> In q (l_prims st) \/ exists p, drawn_prim pname f = Some p /\ q = (prim_node rels layer f p, upper p, layer, type_of f)).
  Proof.
    unfold prim_step. destruct (drawn_prim pname f) as [p|].
    - intros E. injection E as <- <-.
      assert (In (prim_node rels layer f p, n) (l_solid (add_solid (prim_node rels layer f p) n (add_prim (prim_node rels layer f p, upper p, layer, type_of f) st)))) as HI.
      { cbn [add_solid l_solid]. apply in_or_app. right. left. reflexivity. }
      split; [eapply grows_trans; [apply grows_prim | apply grows_solid]|].
      split; [right; apply arrows_one, HI|]. split; [reflexivity|]. split; [reflexivity|]. split.
      + intros q Hq. injection Hq as <-. exists (prim_node rels layer f p). split; [|apply arrows_one, HI].
        cbn [add_solid add_prim l_prims]. apply in_or_app. right. left. reflexivity.
      + intros q Hq. cbn [add_solid add_prim l_prims] in Hq. apply in_app_iff in Hq. destruct Hq as [Hq|[<-|[]]]; [left; exact Hq|].
        right. exists p. split; reflexivity.
    - intros E. injection E as <- <-. split; [apply grows_refl|]. split; [left; reflexivity|]. split; [reflexivity|]. split; [reflexivity|].
      split; [discriminate|]. intros q Hq. left. exact Hq.
  Qed.

  Lemma opening_ok x layer st st' base :
    opening rels pname upper x layer st = (st', base) ->
    grows st st' /\ leads_to st' base (node x) /\
    (forall k, link_column x k -> In k (l_vars st') /\ linked st' k (node x)) /\
    (forall p, drawn_prim pname (whole x) = Some p -> exists layer m, In (m, upper p, layer, type_of (whole x)) (l_prims st') /\ arrows (l_solid st') m (node x)) /\
    l_feats st' = l_feats st /\
    (forall k, In k (l_vars st') -> In k (l_vars st) \/ link_column x k) /\
    (forall q, In q (l_prims st') -> In q (l_prims st) \/ exists p, drawn_prim pname (whole x) = Some p /\ q = (prim_node rels layer (whole x) p, upper p, layer, type_of (whole x))).
  Proof.
    unfold opening. intros E. destruct (prim_step rels pname upper (whole x) layer (node x) st) as [st1 b1] eqn:E1.
    destruct (prim_step_ok _ _ _ _ _ _ E1) as (G1 & L1 & V1 & F1 & D1 & P1).
    destruct (links_ok _ _ _ _ _ _ _ E L1) as (G2 & L2 & K2 & F2 & P2 & V2).
    split; [exact (grows_trans _ _ _ G1 G2)|]. split; [exact L2|]. split; [intros k (fw & r & Hr & ->); exact (K2 fw r Hr)|].
    split; [|split; [congruence|split]].
    - intros p Hp. destruct (D1 p Hp) as (m & Hm & A). exists layer, m. split; [rewrite P2; exact Hm | exact (arrows_mono _ _ _ _ (g_solid _ _ G2) A)].
    - intros k Hk. rewrite <- V1. destruct (V2 k Hk) as [H|H]; [left; exact H | right; exact H].
    - intros q Hq. rewrite P2 in Hq. exact (P1 q Hq).
  Qed.

  Variable root : feat.
  Hypothesis Hnames : names_tell rels root.
  Hypothesis Hone : forall d p bs g nm, lineage root d -> whole d = FGroup p bs g nm -> Forall (fun b => fentity b = fentity g) bs.

  (** every feature listed on the way is finished *)
  Definition fresh (a b : lin) : Prop := forall y, lineage root y -> known (key y) b -> ~ known (key y) a -> finished b y.
  Lemma fresh_trans a b c : grows b c -> fresh a b -> fresh b c -> fresh a c.
  Proof.
    intros G H1 H2 y Hy K N. destruct (known_dec (key y) b) as [Kb|Nb]; [exact (finished_mono _ _ _ G (H1 y Hy Kb N)) | exact (H2 y Hy K Nb)].
  Qed.
  Lemma fresh_same a b : (forall k, known k b -> known k a) -> fresh a b.
  Proof. intros H y _ K N. destruct (N (H _ K)). Qed.
  Lemma fresh_links a b x : lineage root x -> (forall k, known k b -> known k a \/ link_column x k) -> fresh a b.
  Proof.
    intros Hx H y Hy K N. destruct (H _ K) as [Ka|Hl]; [destruct (N Ka)|].
    destruct (proj2 Hnames x y _ Hx Hy Hl eq_refl) as (e & v & nm & ->).
    repeat apply conj; cbn [whole].
    - intros z [].
    - intros k (fw & r & [] & _).
    - intros p Hp. discriminate Hp.
    - intros g Hg. discriminate Hg.
  Qed.

  Lemma group_removed p bs g nm x y : lineage root x -> whole x = FGroup p bs g nm -> In y (bs ++ [g]) -> same_hash rels y g = true -> y = g.
  Proof.
    intros Hx Ex Hy Hs.
    assert (forall z, In z (bs ++ [g]) -> lineage root z) as HL.
    { intros z Hz. apply lineage_uses with x; [exact Hx|]. unfold uses. rewrite Ex. unfold fdeps. cbn [fbases fwhere]. rewrite app_nil_r. exact Hz. }
    assert (fentity y = fentity g) as He.
    { apply in_app_iff in Hy. destruct Hy as [Hy|[<-|[]]]; [|reflexivity]. exact (proj1 (Forall_forall _ _) (Hone _ _ _ _ _ Hx Ex) y Hy). }
    apply (proj1 Hnames); [apply HL, Hy | apply HL, in_or_app; right; left; reflexivity | exact He|].
    unfold same_hash in Hs. apply String.eqb_eq in Hs. rewrite He in Hs.
    clear -Hs. revert Hs. generalize (fname rels y), (fname rels g). intros a b H.
    assert (String.length a = String.length b) as HL.
    { apply (f_equal String.length) in H. assert (forall u v, String.length (u ++ v) = String.length u + String.length v) as HA.
      { induction u as [|c u IH]; intros v; cbn [append String.length]; [reflexivity | rewrite IH; reflexivity]. }
      rewrite !HA in H. lia. }
    revert b H HL. induction a as [|c a IH]; intros [|d b] H HL; cbn [String.length] in HL; [reflexivity | discriminate | discriminate|].
    cbn [append] in H. injection H as -> H. f_equal. apply IH; [exact H | lia].
  Qed.

  Lemma run_complete :
    (forall f layer st st' d, ex rels pname upper f layer st st' d -> lineage root f ->
       grows st st' /\ known (key f) st' /\ fresh st st') /\
    (forall x layer st st' d, bd rels pname upper x layer st st' d -> lineage root x ->
       grows st st' /\ finished st' x /\ fresh st st') /\
    (forall base layer ds st m st' m', vs rels pname upper base layer ds st m st' m' -> (forall d, In d ds -> lineage root d) ->
       grows st st' /\ fresh st st' /\ (forall d, In d ds -> known (key d) st' /\ In (node d, base) (l_solid st'))).
  Proof.
    apply run_ind.
    - intros f layer st H _. split; [apply grows_ent|]. split; [apply listed_known, H|].
      apply fresh_same. intros k. apply known_ent.
    - intros f layer st st' d HN _ IH Hf. destruct (IH Hf) as (G & F & R).
      assert (grows st (mark rels f (add_ent (fentity f) st))) as G0 by (eapply grows_trans; [apply grows_ent | apply grows_mark]).
      split; [exact (grows_trans _ _ _ G0 G)|]. split; [exact (known_mono _ _ _ G (known_mark f _))|].
      intros y Hy K N. destruct (known_dec (key y) (mark rels f (add_ent (fentity f) st))) as [K1|N1]; [|exact (R y Hy K N1)].
      assert (key y = key f) as E.
      { assert (known (key y) (add_ent (fentity f) st) \/ key y = key f) as [K2|E]; [|destruct (N (proj1 (known_ent _ _ _) K2))|exact E].
        unfold known in *. destruct f; cbn [mark add_var add_feat l_vars l_feats] in K1; destruct K1 as [K1|K1];
          first [left; left; exact K1 | left; right; exact K1 | destruct K1 as [K1|K1]; [right; symmetry; exact K1 | left; first [left; exact K1 | right; exact K1]]]. }
      unfold fkey in E. injection E as E1 E2. rewrite (proj1 Hnames y f Hy Hf E1 E2). exact F.
    - intros x layer st st1 base st' d EO Hg _ IH Hx.
      destruct (opening_ok _ _ _ _ _ EO) as (G1 & L1 & K1 & D1 & F1 & V1 & _).
      destruct IH as (G2 & R2 & A2); [intros y Hy; exact (lineage_uses _ _ _ Hx Hy)|].
      split; [exact (grows_trans _ _ _ G1 G2)|].
      split.
      + repeat apply conj.
        * intros y Hy. destruct (A2 y Hy) as [K A]. split; [exact K|]. right. exact (leads_to_step _ _ _ _ A (leads_to_mono _ _ _ _ G2 L1)).
        * intros k Hk. destruct (K1 k Hk) as [V A]. split; [exact (g_vars _ _ G2 _ V) | exact (linked_mono _ _ _ _ G2 A)].
        * intros p Hp. destruct (D1 p Hp) as (ly & m & Hm & A). exists ly, m. split; [exact (g_prims _ _ G2 _ Hm) | exact (arrows_mono _ _ _ _ (g_solid _ _ G2) A)].
        * intros g Hg'. congruence.
      + apply fresh_trans with st1; [exact G2 | | exact R2]. apply fresh_links with x; [exact Hx|].
        intros k [K|K]; [destruct (V1 k K) as [K'|K']; [left; left; exact K' | right; exact K'] | left; right; rewrite <- F1; exact K].
    - intros x p bs g nm layer st st1 base sg dg st2 base2 st' d Ex EO _ IHg EG _ IH Hx.
      destruct (opening_ok _ _ _ _ _ EO) as (G1 & L1 & K1 & D1 & F1 & V1 & _).
      assert (forall z, In z (bs ++ [g]) <-> uses x z) as HU.
      { intros z. unfold uses. rewrite Ex. unfold fdeps. cbn [fbases fwhere]. rewrite app_nil_r. reflexivity. }
      assert (uses x g) as Hug by (apply HU, in_or_app; right; left; reflexivity).
      destruct (IHg (lineage_uses _ _ _ Hx Hug)) as (Gg & Kg & Rg).
      assert (grows st1 (mark rels g sg)) as Gm by (exact (grows_trans _ _ _ Gg (grows_mark g sg))).
      destruct (group_step_ok _ _ _ _ _ _ (node x) EG (leads_to_mono _ _ _ _ Gm L1)) as (Gs & Ls & Ks & Vs & Fs & _).
      destruct IH as (G2 & R2 & A2).
      { intros z Hz. apply lineage_uses with x; [exact Hx|]. apply HU. exact (remove_first_In _ _ _ Hz). }
      assert (grows st1 st2) as G12 by (exact (grows_trans _ _ _ Gm Gs)).
      split; [exact (grows_trans _ _ _ G1 (grows_trans _ _ _ G12 G2))|].
      split.
      + assert (known (key g) st') as Kg' by (exact (known_mono _ _ _ (grows_trans _ _ _ (grows_trans _ _ _ (grows_mark g sg) Gs) G2) Kg)).
        repeat apply conj.
        * intros y Hy. destruct (In_remove_first (fun b => same_hash rels b g) _ _ (proj2 (HU y) Hy)) as [Hr|Hr].
          -- destruct (A2 y Hr) as [K A]. split; [exact K|]. right. exact (leads_to_step _ _ _ _ A (leads_to_mono _ _ _ _ G2 Ls)).
          -- rewrite (group_removed _ _ _ _ _ _ Hx Ex (proj2 (HU y) Hy) Hr). split; [exact Kg'|]. left. rewrite Ex. reflexivity.
        * intros k Hk. destruct (K1 k Hk) as [V A]. split; [exact (g_vars _ _ (grows_trans _ _ _ G12 G2) _ V) | exact (linked_mono _ _ _ _ (grows_trans _ _ _ G12 G2) A)].
        * intros q Hq. destruct (D1 q Hq) as (ly & m & Hm & A). exists ly, m.
          split; [exact (g_prims _ _ (grows_trans _ _ _ G12 G2) _ Hm) | exact (arrows_mono _ _ _ _ (g_solid _ _ (grows_trans _ _ _ G12 G2)) A)].
        * intros g' Hg'. rewrite Ex in Hg'. injection Hg' as <-. exact (linked_mono _ _ _ _ G2 Ks).
      + apply fresh_trans with st1; [exact (grows_trans _ _ _ G12 G2) | |].
        * apply fresh_links with x; [exact Hx|].
          intros k [K|K]; [destruct (V1 k K) as [K'|K']; [left; left; exact K' | right; exact K'] | left; right; rewrite <- F1; exact K].
        * apply fresh_trans with st2; [exact G2 | | exact R2].
          apply fresh_trans with sg; [exact (grows_trans _ _ _ (grows_mark g sg) Gs) | exact Rg|].
          apply fresh_same. intros k K. unfold known in K. rewrite Vs, Fs in K.
          destruct g; cbn [mark add_var add_feat l_vars l_feats] in K;
            destruct K as [K|K]; first [left; exact K | right; exact K | destruct K as [<-|K]; [exact Kg | first [left; exact K | right; exact K]]].
    - intros base layer st m _. split; [apply grows_refl|]. split; [apply fresh_same; auto | intros d []].
    - intros base layer d ds st m st1 d1 st' m' _ IHd _ IH Hds.
      destruct (IHd (Hds d (or_introl eq_refl))) as (G1 & K1 & R1).
      destruct IH as (G2 & R2 & A2); [intros z Hz; apply Hds; right; exact Hz|].
      assert (grows st1 st') as G3 by (eapply grows_trans; [apply grows_solid | exact G2]).
      split; [exact (grows_trans _ _ _ G1 G3)|]. split.
      + apply fresh_trans with st1; [exact G3 | exact R1|]. apply fresh_trans with (add_solid (node d) base st1); [exact G2 | | exact R2].
        apply fresh_same. intros k K. exact K.
      + intros z [<-|Hz]; [|exact (A2 z Hz)]. split; [exact (known_mono _ _ _ G3 K1)|].
        apply (g_solid _ _ G2). cbn [add_solid l_solid]. apply in_or_app. right. left. reflexivity.
  Qed.
End Complete.
