(** C67: what a lineage graph shows. *)
From Coq Require Import Lia.
From Verif Require Import Base BaseFacts M_Schema M_Feature M_Lineage S_Lineage L_FeatureSet L_Lineage L_Lineage2 L_Lineage3 X_Demo.

Lemma mem_str_true x l : mem_str x l = true -> In x l.
Proof. apply mem_str_In. Qed.
Lemma mem_str_false_In x l : mem_str x l = false -> ~ In x l.
Proof. intros H Hi. apply mem_str_In in Hi. congruence. Qed.
Lemma without_In l ts x : In x (without l ts) <-> In x l /\ ~ In x ts.
Proof.
  unfold without. rewrite filter_In. destruct (mem_str x ts) eqn:E; cbn [negb].
  - apply mem_str_In in E. split; [intros [_ H]; discriminate | intros [_ H]; destruct (H E)].
  - apply mem_str_false_In in E. split; [intros [H _]; split; assumption | intros [H _]; split; [exact H | reflexivity]].
Qed.

(** a table has exactly one kind of row for each name, marked when the name is the target's *)
Lemma table_rows_ok index ts vars feats n b :
  In (n, b) (table_rows index ts vars feats) <->
  (In n vars \/ In n feats \/ In n ts) /\ b = mem_str n ts.
Proof.
  unfold table_rows.
  assert (forall T, (forall x, mem_str x T = true <-> In x T)) as HT by (intros T x; apply mem_str_In).
  assert (forall A B : bool, (A = true <-> B = true) -> A = B) as HB by (intros [] [] [H1 H2]; try reflexivity; [symmetry; apply H1 | apply H2]; reflexivity).
  destruct (mem_str index (without vars ts)) eqn:E1.
  - apply mem_str_true, without_In in E1. destruct E1 as [E1 E1'].
    cbn [app]. cbn [In]. rewrite in_map_iff. split.
    + intros [E|(x & E & Hx)].
      * injection E as <- <-. split; [left; exact E1|]. symmetry. destruct (mem_str index ts) eqn:E; [destruct (E1' (mem_str_true _ _ E)) | reflexivity].
      * injection E as <- <-. split; [|reflexivity]. rewrite !in_app_iff in Hx. rewrite !without_In in Hx. tauto.
    + intros [H ->]. destruct (string_dec n index) as [->|Hn].
      * left. f_equal. symmetry. destruct (mem_str index ts) eqn:E; [destruct (E1' (mem_str_true _ _ E)) | reflexivity].
      * right. exists n. split; [reflexivity|]. rewrite !in_app_iff, !without_In.
        destruct (in_dec string_dec n ts) as [Ht|Ht]; [right; right; exact Ht|].
        destruct H as [H|[H|H]]; [left | right; left | right; right; exact H]; repeat split; try assumption.
        intros [->|[]]. apply Hn. reflexivity.
  - destruct (mem_str index ts) eqn:E2.
    + apply mem_str_true in E2. cbn [app]. cbn [In]. rewrite in_map_iff. split.
      * intros [E|(x & E & Hx)].
        -- injection E as <- <-. split; [right; right; exact E2 | symmetry; apply HT; exact E2].
        -- injection E as <- <-. rewrite !in_app_iff, !without_In in Hx. split; [tauto|].
           apply HB. rewrite !HT, without_In. split; [tauto|]. intros Ht. split; [exact Ht|].
           intros [<-|[]]. destruct Hx as [[_ Hx]|[[_ Hx]|[_ Hx]]]; [exact (Hx Ht) | exact (Hx Ht) | apply Hx; left; reflexivity].
      * intros [H ->]. destruct (string_dec n index) as [->|Hn]; [left; f_equal; symmetry; apply HT; exact E2|].
        assert (~ In n [index]) as Hni by (intros [E|[]]; apply Hn; symmetry; exact E).
        right. exists n. split.
        -- f_equal. apply HB. rewrite !HT, without_In. tauto.
        -- rewrite !in_app_iff, !without_In. destruct (in_dec string_dec n ts) as [Ht|Ht]; tauto.
    + cbn [app]. rewrite in_map_iff. split.
      * intros (x & E & Hx). injection E as <- <-. rewrite !in_app_iff, !without_In in Hx. split; [tauto | reflexivity].
      * intros [H ->]. exists n. split; [reflexivity|]. rewrite !in_app_iff, !without_In. destruct (in_dec string_dec n ts) as [Ht|Ht]; tauto.
Qed.

Lemma names_in_In e l n : In n (names_in e l) <-> In (e, n) l.
Proof.
  unfold names_in.
  assert (forall (l : list string) seen x, In x (dedup_by String.eqb seen l) -> In x l) as HD1.
  { clear. induction l as [|a l IH]; intros seen x; cbn [dedup_by]; [intros []|].
    destruct (existsb (String.eqb a) seen); [intros H; right; exact (IH _ _ H)|]. intros [->|H]; [left; reflexivity | right; exact (IH _ _ H)]. }
  assert (forall (l : list string) seen x, In x l -> ~ In x seen -> In x (dedup_by String.eqb seen l)) as HD2.
  { clear. induction l as [|a l IH]; intros seen x; cbn [dedup_by]; [intros []|].
    intros Hx Hs. destruct (existsb (String.eqb a) seen) eqn:E.
    - apply existsb_exists in E. destruct E as (y & Hy & E). apply String.eqb_eq in E. subst y.
      destruct Hx as [->|Hx]; [destruct (Hs Hy) | exact (IH _ _ Hx Hs)].
    - destruct (string_dec a x) as [->|Ha]; [left; reflexivity|]. right. destruct Hx as [->|Hx]; [destruct (Ha eq_refl)|].
      apply IH; [exact Hx|]. intros [E'|H]; [exact (Ha E') | exact (Hs H)]. }
  assert (In n (map snd (filter (fun k : string * string => String.eqb (fst k) e) l)) <-> In (e, n) l) as HM.
  { rewrite in_map_iff. split.
    - intros ([e' n'] & <- & H). apply filter_In in H. destruct H as [H E]. cbn [fst] in E. apply String.eqb_eq in E. subst e'. exact H.
    - intros H. exists (e, n). split; [reflexivity|]. apply filter_In. split; [exact H | apply String.eqb_refl]. }
  rewrite <- HM. split; [apply HD1 | intros H; apply HD2; [exact H | intros []]].
Qed.

Section Graph.
  Variables (rels : list relationship) (pname : prim -> string) (upper : string -> string) (index : string -> string).
  Variable f : feat.
  Notation key := (fkey rels).
  Notation node x := (col_node (fkey rels x)).
  Notation data := (lineage_data rels pname upper f).

  (** [shown e n b]: the graph has a table for [e] with a row [n], highlighted as the target if [b] *)
  Definition shown (e n : string) (b : bool) : Prop :=
    exists t rows, In (e, t, rows) (tables rels pname upper index f) /\ In (n, b) rows.

  Lemma data_ex : ex rels pname upper f 0 lin0 (fst data) (snd data).
  Proof. apply explore_ex. Qed.
  Lemma data_sound : oks rels pname upper f (fst data).
  Proof. exact (proj1 (proj1 (run_sound rels pname upper f) _ _ _ _ _ data_ex (lineage_self f) (oks0 rels pname upper f))). Qed.
  Lemma root_known : known (key f) (fst data).
  Proof.
    assert (forall g layer a b d, ex rels pname upper g layer a b d -> grows a b /\ known (key g) b) as HG.
    { refine (proj1 (run_ind rels pname upper (fun g _ a b _ => grows a b /\ known (key g) b) (fun _ _ a b _ => grows a b) (fun _ _ _ a _ b _ => grows a b) _ _ _ _ _ _)).
      - intros g layer st H. split; [apply grows_ent | apply listed_known, H].
      - intros g layer st st' d _ _ IH. split; [|exact (known_mono _ _ _ IH (known_mark rels g _))].
        eapply grows_trans; [apply grows_ent|]. eapply grows_trans; [apply (grows_mark rels g) | exact IH].
      - intros x layer st st1 base st' d EO _ _ IH. exact (grows_trans _ _ _ (proj1 (opening_ok rels pname upper _ _ _ _ _ EO)) IH).
      - intros x p bs g nm layer st st1 base sg dg st2 base2 st' d _ EO _ IHg EG _ IH.
        eapply grows_trans; [exact (proj1 (opening_ok rels pname upper _ _ _ _ _ EO))|].
        eapply grows_trans; [exact (proj1 IHg)|]. eapply grows_trans; [apply (grows_mark rels g)|]. eapply grows_trans; [|exact IH].
        unfold group_step in EG. injection EG as <- <-. eapply grows_trans; [apply grows_group|]. eapply grows_trans; [apply grows_dotted | apply grows_solid].
      - intros. apply grows_refl.
      - intros base layer d ds st m st1 d1 st' m' _ IH1 _ IH2. eapply grows_trans; [exact (proj1 IH1)|]. eapply grows_trans; [apply grows_solid | exact IH2]. }
    exact (proj2 (HG _ _ _ _ _ data_ex)).
  Qed.

  Lemma shown_iff e n b : shown e n b <-> known (e, n) (fst data) /\ (b = true <-> e = fentity f /\ n = fname rels f).
  Proof.
    unfold shown, tables. split.
    - intros (t & rows & Ht & Hr). apply in_map_iff in Ht. destruct Ht as (e' & E & He). injection E as <- <- <-.
      unfold entity_rows in Hr. apply table_rows_ok in Hr. destruct Hr as [Hr ->]. rewrite !names_in_In in Hr.
      destruct (String.eqb e' (fentity f)) eqn:Ee.
      + apply String.eqb_eq in Ee. subst e'. split.
        * destruct Hr as [H|[H|[<-|[]]]]; [left; exact H | right; exact H | exact root_known].
        * rewrite mem_str_In. cbn [In]. split; [intros [<-|[]]; split; reflexivity | intros [_ ->]; left; reflexivity].
      + split; [destruct Hr as [H|[H|[]]]; [left; exact H | right; exact H]|].
        split; [discriminate|]. intros [-> _]. rewrite String.eqb_refl in Ee. discriminate.
    - intros [Hk Hb]. exists (String.eqb e (fentity f)), (entity_rows rels pname upper index f e). split.
      + apply in_map_iff. exists e. split; [reflexivity|]. exact (o_ents _ _ _ _ _ data_sound (e, n) Hk).
      + unfold entity_rows. apply table_rows_ok. rewrite !names_in_In. split; [destruct Hk as [H|H]; [left; exact H | right; left; exact H]|].
        destruct (String.eqb e (fentity f)) eqn:Ee.
        * apply String.eqb_eq in Ee. destruct b.
          -- destruct (proj1 Hb eq_refl) as [_ ->]. cbn [mem_str existsb]. rewrite String.eqb_refl. reflexivity.
          -- cbn [mem_str existsb]. destruct (String.eqb n (fname rels f)) eqn:En; [|reflexivity].
             apply String.eqb_eq in En. discriminate (proj2 Hb (conj Ee En)).
        * destruct b; [|reflexivity]. destruct (proj1 Hb eq_refl) as [-> _]. rewrite String.eqb_refl in Ee. discriminate.
  Qed.

  (** C67, first half, for every feature: each row of a table names the feature, one of the features it is built from, or a column
      that links the rows of two entities on the way; exactly the row of the feature itself is highlighted. *)
  Theorem C67_only_lineage : forall e n b, shown e n b ->
    (exists x, lineage f x /\ ((fentity x = e /\ fname rels x = n) \/ link_column x (e, n))) /\
    (b = true <-> e = fentity f /\ n = fname rels f).
  Proof.
    intros e n b H. apply shown_iff in H. destruct H as [[H|H] Hb]; (split; [|exact Hb]).
    - destruct (o_vars _ _ _ _ _ data_sound _ H) as (x & Hx & [[E _]|Hl]); exists x; (split; [exact Hx|]).
      + left. injection E as -> ->. split; reflexivity.
      + right. exact Hl.
    - destruct (o_feats _ _ _ _ _ data_sound _ H) as (x & Hx & E & _). exists x. split; [exact Hx|]. left. injection E as -> ->. split; reflexivity.
  Qed.

  (** C67, arrows and dotted lines are drawn only for the lineage: an arrow ends at a node of a feature [x] of the lineage and starts at
      another node of [x] or at the row of a feature that [x] uses; a dotted line joins a node of [x] and a column that tells its rows apart. *)
  Theorem C67_only_lineage_edges : 
    (forall a b, In (a, b) (l_solid (fst data)) -> exists x, lineage f x /\ part_of rels pname x b /\
       (part_of rels pname x a \/ exists y, uses x y /\ a = node y)) /\
    (forall a b, In (a, b) (l_dotted (fst data)) -> exists x k, lineage f x /\ told_apart rels x k /\
       ((a = col_node k /\ part_of rels pname x b) \/ (b = col_node k /\ part_of rels pname x a))) /\
    (forall m l ly t, In (m, l, ly, t) (l_prims (fst data)) -> exists x p, lineage f x /\ drawn_prim pname (whole x) = Some p /\
       m = prim_node rels ly (whole x) p /\ l = upper p /\ t = type_of (whole x)).
  Proof.
    repeat apply conj.
    - intros a b H. exact (o_solid _ _ _ _ _ data_sound _ H).
    - intros a b H. exact (o_dotted _ _ _ _ _ data_sound _ H).
    - intros m l ly t H. destruct (o_prims _ _ _ _ _ data_sound _ H) as (x & ly' & p & Hx & Hp & E).
      injection E as -> -> -> ->. exists x, p. repeat apply conj; try reflexivity; assumption.
  Qed.

  (** C67, second half: when entity and name tell the features of the lineage apart, every feature of the lineage has its row, every
      input of a feature is joined to it by arrows (the feature it is grouped by: by a dotted line and arrows), its primitive
      is drawn with its name and type and joined to it, and so are the columns that link the rows. *)
  Theorem C67_all_lineage_partial : names_tell rels f -> groups_in_one_entity f ->
    forall x, lineage f x ->
      (exists b, shown (fentity x) (fname rels x) b) /\
      (forall y, uses x y -> fgroupby (whole x) = Some y \/ arrows (l_solid (fst data)) (node y) (node x)) /\
      (forall p t, computed_by pname x p t -> p <> ""%string ->
         exists layer m, In (m, upper p, layer, t) (l_prims (fst data)) /\ arrows (l_solid (fst data)) m (node x)) /\
      (forall e n, link_column x (e, n) -> exists b, shown e n b) /\
      (forall k, told_apart rels x k -> exists m, (m = node x \/ arrows (l_solid (fst data)) m (node x)) /\
         (In (m, col_node k) (l_dotted (fst data)) \/ In (col_node k, m) (l_dotted (fst data)))).
  Proof.
    intros HN HG.
    destruct (proj1 (run_complete rels pname upper f HN HG) _ _ _ _ _ data_ex (lineage_self f)) as (_ & HK & HF).
    assert (forall k, ~ known k lin0) as H0 by (intros k [[]|[]]).
    assert (forall x, lineage f x -> known (key x) (fst data) /\ finished rels pname upper (fst data) x) as HA.
    { induction 1 as [|d x Hd IH Hu].
      - split; [exact HK | exact (HF f (lineage_self f) HK (H0 _))].
      - destruct IH as [_ (Hfu & _)]. destruct (Hfu x Hu) as [Hk _]. split; [exact Hk|].
        exact (HF x (lineage_uses _ _ _ Hd Hu) Hk (H0 _)). }
    assert (forall e n, known (e, n) (fst data) -> exists b, shown e n b) as HS.
    { intros e n Hk. exists (String.eqb e (fentity f) && String.eqb n (fname rels f)). apply shown_iff. split; [exact Hk|].
      rewrite Bool.andb_true_iff, !String.eqb_eq. reflexivity. }
    intros x Hx. destruct (HA x Hx) as [Hk (H1 & H2 & H3 & H4)]. repeat apply conj.
    - exact (HS _ _ Hk).
    - intros y Hy. exact (proj2 (H1 y Hy)).
    - intros p t Hp Hne. assert (drawn_prim pname (whole x) = Some p /\ t = type_of (whole x)) as [Hd ->]; [|exact (H3 p Hd)].
      unfold computed_by in Hp. unfold drawn_prim. destruct (whole x); cbn [prim_name_of type_of]; try (destruct Hp; fail); destruct Hp as [-> ->]; (split; [|reflexivity]);
        first [reflexivity | destruct (pname p0); [destruct (Hne eq_refl) | reflexivity]].
    - intros e n Hl. apply HS. left. exact (proj1 (H2 _ Hl)).
    - intros k [Hl|(g & Hg & ->)]; [exact (proj2 (H2 _ Hl)) | exact (H4 g Hg)].
  Qed.

  (** C67, the numbers of the steps: no step is later than that of the feature's own primitive, which alone has the last number;
      when nothing is grouped by a feature, every number is at least 1. *)
  Theorem C67_last_step : forall m s, In (m, s) (steps rels pname upper f) ->
    (s <= Z.of_nat (snd data))%Z /\
    (s = Z.of_nat (snd data) -> exists p, drawn_prim pname (whole f) = Some p /\ m = prim_node rels 0 (whole f) p).
  Proof.
    intros m s H. unfold steps in H. apply in_map_iff in H. destruct H as ([[[m' l] ly] t] & E & Hq). unfold step_num in E. cbn [fst snd] in E.
    injection E as -> <-. split; [lia|]. intros E.
    destruct (proj1 (run_layers rels pname upper) _ _ _ _ _ data_ex _ Hq) as [[]|[Ho|Hl]].
    - destruct Ho as (p & Hp & E'). injection E' as -> _ _ _. exists p. split; [exact Hp | reflexivity].
    - unfold lay in Hl. cbn [fst snd] in Hl. lia.
  Qed.
  Theorem C67_steps_partial : no_groupby f -> has_inputs f -> forall m s, In (m, s) (steps rels pname upper f) -> (1 <= s)%Z.
  Proof.
    intros HG HI m s H. unfold steps in H. apply in_map_iff in H. destruct H as ([[[m' l] ly] t] & E & Hq). unfold step_num in E. cbn [fst snd] in E.
    injection E as -> <-.
    destruct (proj2 (proj1 (run_depth rels pname upper f HG HI) _ _ _ _ _ data_ex (lineage_self f)) _ Hq) as [[]|Hl].
    unfold lay in Hl. cbn [fst snd] in Hl. lia.
  Qed.
End Graph.

Definition same_text (s : string) : string := s.
Definition p_plus : prim := mkPrim "Plus" 1 false false VNull false
  (fun bs => String.concat " + " bs) (fun _ _ _ _ _ => ""%string) (fun _ cs => [nth 0 cs []]) (fun _ _ => []).
(** a feature, its absolute value, and their sum *)
Definition f_plus : feat := FTrans p_plus [f_cum; FTrans p_abs [f_cum] None] None.
(** grouped by a feature that is itself computed in three steps *)
Definition f_deep_group : feat := FGroup p_cumsum [f_amt] (FTrans p_abs [FTrans p_abs [f_cum] None] None) None.
(** the absolute value of the time, renamed like the column "amt" *)
Definition f_named_amt : feat := FTrans p_abs [FIdent "event" "t" None] (Some "amt"%string).
Definition f_hides : feat := FTrans p_plus [f_amt; f_named_amt] None.

Ltac in_lineage l H := induction H as [|d x Hd IH Hu]; [repeat (first [left; reflexivity | right]) | 
  repeat (destruct IH as [<-|IH]; [cbn in Hu; repeat (destruct Hu as [<-|Hu]; [repeat (first [left; reflexivity | right])|]); destruct Hu|]); destruct IH].

Lemma wsum_lineage x : lineage f_wsum x -> In x [f_wsum; f_cum; f_dev; f_amt; FIdent "sess" "dev" None].
Proof. intros H. in_lineage l H. Qed.
Lemma plus_lineage x : lineage f_plus x -> In x [f_plus; f_cum; FTrans p_abs [f_cum] None; f_amt].
Proof. intros H. in_lineage l H. Qed.

Lemma wsum_names : names_tell demo_rels f_wsum.
Proof.
  split.
  - intros d x Hd Hx E1 E2. apply wsum_lineage in Hd. apply wsum_lineage in Hx.
    repeat (destruct Hd as [<-|Hd]; [repeat (destruct Hx as [<-|Hx]; [first [reflexivity | vm_compute in E1, E2; discriminate]|]); destruct Hx|]); destruct Hd.
  - intros d x k Hd Hx (fw & r & Hr & ->) E. apply wsum_lineage in Hd. apply wsum_lineage in Hx.
    repeat (destruct Hd as [<-|Hd]; [cbn in Hr; repeat (destruct Hr as [Hr|Hr]; [injection Hr as <- <-;
      repeat (destruct Hx as [<-|Hx]; [first [do 3 eexists; reflexivity | vm_compute in E; discriminate]|]); destruct Hx|]); destruct Hr|]); destruct Hd.
Qed.
Lemma plus_names : names_tell demo_rels f_plus.
Proof.
  split.
  - intros d x Hd Hx E1 E2. apply plus_lineage in Hd. apply plus_lineage in Hx.
    repeat (destruct Hd as [<-|Hd]; [repeat (destruct Hx as [<-|Hx]; [first [reflexivity | vm_compute in E1, E2; discriminate]|]); destruct Hx|]); destruct Hd.
  - intros d x k Hd Hx (fw & r & Hr & ->) E. apply plus_lineage in Hd.
    repeat (destruct Hd as [<-|Hd]; [destruct Hr|]); destruct Hd.
Qed.

(** the hypotheses hold for a weighted sum over two relationships of a running total and a column copied from a parent; its graph shows
    the three tables, and "Step 2" is the weighted sum *)
Example C67_nonvacuous :
  names_tell demo_rels f_wsum /\ groups_in_one_entity f_wsum /\ no_groupby f_wsum /\ has_inputs f_wsum /\
  steps demo_rels p_name same_text f_wsum =
    [("0_WSUM(event.CUM_SUM(amt), sess.dev)_WSum", 2%Z); ("1_CUM_SUM(amt)_CumSum", 1%Z); ("1_sess.dev_join", 1%Z)]%string /\
  tables demo_rels p_name same_text (fun _ => "id"%string) f_wsum =
    [("cust", true, [("WSUM(event.CUM_SUM(amt), sess.dev)", true)]);
     ("sess", false, [("dev", false); ("cid", false)]);
     ("event", false, [("sid", false); ("amt", false); ("sess.dev", false); ("CUM_SUM(amt)", false)])]%string.
Proof.
  split; [exact wsum_names|]. split.
  { intros d p bs g nm Hd E. apply wsum_lineage in Hd. repeat (destruct Hd as [<-|Hd]; [discriminate E|]). destruct Hd. }
  split.
  { intros d Hd. apply wsum_lineage in Hd. repeat (destruct Hd as [<-|Hd]; [reflexivity|]). destruct Hd. }
  split.
  { intros d Hd. apply wsum_lineage in Hd.
    repeat (destruct Hd as [<-|Hd]; [first [left; discriminate | right; do 3 eexists; reflexivity]|]). destruct Hd. }
  split; vm_compute; reflexivity.
Qed.

(** C67 does not hold for the order of the steps: a feature and one of its inputs can carry the same step number, although the
    input is computed first (an input that is used twice is numbered where it is met first). *)
Theorem C67_step_order_refuted :
  exists f d x md mx s, names_tell demo_rels f /\ no_groupby f /\ lineage f d /\ uses d x /\
    md = prim_node demo_rels 1 d "Absolute" /\ mx = prim_node demo_rels 1 x "CumSum" /\
    In (md, s) (steps demo_rels p_name same_text f) /\ In (mx, s) (steps demo_rels p_name same_text f).
Proof.
  exists f_plus, (FTrans p_abs [f_cum] None), f_cum. do 2 eexists. exists 1%Z.
  split; [exact plus_names|]. split.
  { intros d Hd. apply plus_lineage in Hd. repeat (destruct Hd as [<-|Hd]; [reflexivity|]). destruct Hd. }
  split; [apply lineage_uses with f_plus; [apply lineage_self | right; left; reflexivity]|].
  split; [left; reflexivity|]. split; [reflexivity|]. split; [reflexivity|].
  split; vm_compute; tauto.
Qed.

(** nor for features grouped by a computed feature: there the numbers go below 1 *)
Theorem C67_steps_groupby_refuted :
  has_inputs f_deep_group /\
  map snd (steps demo_rels p_name same_text f_deep_group) = [1; 0; -1; -2]%Z.
Proof.
  split; [|vm_compute; reflexivity].
  assert (forall x, lineage f_deep_group x -> In x [f_deep_group; f_amt; FTrans p_abs [FTrans p_abs [f_cum] None] None; FTrans p_abs [f_cum] None; f_cum]) as HL.
  { intros x H. in_lineage l H. }
  intros d Hd. apply HL in Hd. repeat (destruct Hd as [<-|Hd]; [first [left; discriminate | right; do 3 eexists; reflexivity]|]). destruct Hd.
Qed.

(** and when a feature is renamed like a column of its entity that is also used, the features it is built from are missing *)
Theorem C67_renamed_refuted : forall index,
  lineage f_hides (FIdent "event" "t" None) /\ forall b, ~ shown demo_rels p_name same_text index f_hides "event" "t" b.
Proof.
  intros index. split.
  - apply lineage_uses with f_named_amt; [apply lineage_uses with f_hides; [apply lineage_self | right; left; reflexivity] | left; reflexivity].
  - intros b H. apply shown_iff in H. destruct H as [H _]. vm_compute in H.
    repeat match goal with H : _ \/ _ |- _ => destruct H as [H|H] end; first [discriminate H | destruct H].
Qed.

Print Assumptions C67_all_lineage_partial.
Print Assumptions C67_only_lineage.
Print Assumptions C67_only_lineage_edges.
Print Assumptions C67_last_step.
Print Assumptions C67_steps_partial.
