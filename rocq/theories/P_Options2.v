(** C88: mistakes in primitive_options are reported. *)
From Coq Require Import List String ZArith Bool Lia.
From Verif Require Import Base BaseFacts M_Match M_Options S_Options2.
Import ListNotations.
Local Open Scope list_scope.

Lemma hashable_simple v : hashable v = true <-> simple v.
Proof.
  split.
  - destruct v; cbn; intros H; try discriminate H; [left; eauto | right; eauto].
  - intros [[s ->] | [z ->]]; reflexivity.
Qed.
Lemma is_name_iff s v : is_name s v = true <-> v = PStr s.
Proof.
  destruct v; cbn; split; intros H; try discriminate H.
  - apply String.eqb_eq in H. congruence.
  - injection H as <-. apply String.eqb_refl.
Qed.
Lemma known_iff es e : existsb (fun x => is_name (fst x) e) es = true <-> has_entity es e.
Proof.
  rewrite existsb_exists. split.
  - intros ([n vs] & Hi & Hn). apply is_name_iff in Hn. cbn in Hn. exists n, vs. auto.
  - intros (n & vs & -> & Hi). exists (n, vs). split; [exact Hi | apply is_name_iff; reflexivity].
Qed.
Lemma in_vars_iff es e x : in_vars es e x = true <-> has_variable es e x.
Proof.
  unfold in_vars. rewrite existsb_exists. split.
  - intros ([n vs] & Hi & H). apply andb_true_iff in H as [Hn Hx]. apply is_name_iff in Hn. cbn in Hn, Hx.
    apply existsb_exists in Hx as (s & Hs & Hx). apply is_name_iff in Hx. exists n, vs, s. auto.
  - intros (n & vs & s & -> & Hi & -> & Hs). exists (n, vs). split; [exact Hi|]. apply andb_true_iff. split; [apply is_name_iff; reflexivity|].
    apply existsb_exists. exists s. split; [exact Hs | apply is_name_iff; reflexivity].
Qed.
Lemma in_es_Ok es e b : in_es es e = Ok b <-> simple e /\ (b = true <-> has_entity es e).
Proof.
  unfold in_es. rewrite <- (hashable_simple e), <- (known_iff es e). destruct (hashable e); split.
  - intros H. injection H as <-. split; [reflexivity | tauto].
  - intros [_ H]. f_equal. destruct b, (existsb _ es); intuition congruence.
  - discriminate.
  - intros [H _]. discriminate H.
Qed.
Lemma to_set_Ok l s : to_set l = Ok s <-> s = l /\ forall x, In x l -> simple x.
Proof.
  unfold to_set. destruct (forallb hashable l) eqn:E.
  - split; [intros H; injection H as <- | intros [-> _]; reflexivity]. split; [reflexivity|].
    intros x Hx. apply hashable_simple. exact (proj1 (forallb_forall _ _) E x Hx).
  - split; [discriminate|]. intros [_ H]. exfalso. assert (forallb hashable l = true); [|congruence].
    apply forallb_forall. intros x Hx. apply hashable_simple, H, Hx.
Qed.

(** the checks *)
Lemma mapM_total {A B} (f : A -> res B) l : (exists bs, mapM f l = Ok bs) <-> forall a, In a l -> exists b, f a = Ok b.
Proof.
  split.
  - intros [bs H] a Ha. apply mapM_Ok_Forall2 in H. induction H as [|x y l bs Hxy _ IH]; [destruct Ha|].
    destruct Ha as [-> | Ha]; [eauto | auto].
  - intros H. induction l as [|a l IH]; [exists []; reflexivity|]. destruct (H a (or_introl eq_refl)) as [b Hb].
    destruct IH as [bs Hbs]; [intros x Hx; apply H; right; exact Hx|]. exists (b :: bs). cbn. rewrite Hb. cbn. rewrite Hbs. reflexivity.
Qed.
Lemma In_concat_mapM {A B} (f : A -> res (list B)) l bs : mapM f l = Ok bs -> forall w, In w (List.concat bs) <-> exists a ws, In a l /\ f a = Ok ws /\ In w ws.
Proof.
  intros H w. apply mapM_Ok_Forall2 in H. induction H as [|x y l bs Hxy _ IH]; cbn [List.concat].
  - split; [intros [] | intros (a & ws & [] & _)].
  - rewrite in_app_iff, IH. split.
    + intros [Hw | (a & ws & Ha & Hf & Hw)]; [exists x, y; cbn; auto | exists a, ws; cbn; auto].
    + intros (a & ws & [-> | Ha] & Hf & Hw); [left; rewrite Hf in Hxy; injection Hxy as ->; exact Hw | right; eauto].
Qed.

(** what one option gives when it is accepted *)
Definition warns (es : esdict) (o : pv) (w : warning) : Prop :=
  match w with
  | WEntity e => mentions_entity o e /\ ~ has_entity es e
  | WVariable x e => mentions_variable o x e /\ has_entity es e /\ ~ has_variable es e x
  end.
Definition reads es (chk : pv -> res (option (list warning))) (o : pv) (v : oval) (ws : list warning) : Prop :=
  chk o = Ok (Some ws) /\ to_oval o = Ok (Some v) /\ read_as o v /\ forall w, In w ws <-> warns es o w.

Lemma entities_ok es o ws : list_entity_check es o = Ok (Some ws) -> forall v, to_oval o = Ok (Some v) -> a_list o /\ read_as o v /\ forall w, In w ws <-> warns es o w.
Proof.
  destruct o as [| |l|]; cbn [list_entity_check]; try discriminate. intros H v Hv.
  apply bind_Ok in H as (bs & Hb & H). injection H as <-. cbn in Hv. apply bind_Ok in Hv as (s & Hs & Hv). injection Hv as <-.
  apply to_set_Ok in Hs as [-> Hs]. split; [exists l; auto|]. split; [reflexivity|].
  intros w. rewrite (In_concat_mapM _ _ _ Hb). split.
  - intros (e & ws & He & Hf & Hw). apply bind_Ok in Hf as (b & Hb' & Hf). injection Hf as <-.
    apply in_es_Ok in Hb' as [_ Hb']. destruct b; [destruct Hw|]. destruct Hw as [<- | []]. split; [left; eauto|].
    intros Hn. apply Hb' in Hn. discriminate Hn.
  - destruct w as [e | x e].
    + intros [[(l' & E & He) | (d & x & E & _)] Hn]; [injection E as <- | discriminate E].
      exists e, [WEntity e]. split; [exact He|]. split; [|left; reflexivity].
      assert (in_es es e = Ok false) as ->; [|reflexivity]. apply in_es_Ok. split; [apply Hs, He|]. split; [discriminate | tauto].
    + intros [(d & l' & E & _) _]. discriminate E.
Qed.
Lemma tables_ok es o ws : dict_to_list_variable_check es o = Ok (Some ws) -> forall v, to_oval o = Ok (Some v) -> a_table o /\ read_as o v /\ forall w, In w ws <-> warns es o w.
Proof.
  destruct o as [| | |d]; cbn [dict_to_list_variable_check]; try discriminate. destruct (forallb _ d) eqn:El; [|discriminate]. intros H v Hv.
  apply bind_Ok in H as (bs & Hb & H). injection H as <-. cbn in Hv. apply bind_Ok in Hv as (t & Ht & Hv). injection Hv as <-.
  assert (forall k x, In (k, x) d -> exists l, x = PList l) as Hl.
  { intros k x Hi. pose proof (proj1 (forallb_forall _ _) El _ Hi) as Hx. cbn in Hx. destruct x; try discriminate Hx. eauto. }
  assert (forall k x, In (k, x) d -> simple k) as Hk.
  { intros k x Hi. destruct (proj1 (mapM_total _ _) (ex_intro _ bs Hb) _ Hi) as [ws' Hw]. apply bind_Ok in Hw as (b & Hw & _). apply in_es_Ok in Hw. tauto. }
  split.
  { exists d. split; [reflexivity|]. intros k x Hi. split; [exact (Hk k x Hi)|]. destruct (Hl k x Hi) as [l ->]. exists l. split; [reflexivity|].
    destruct (proj1 (mapM_total _ _) (ex_intro _ t Ht) _ Hi) as [s Hs]. apply bind_Ok in Hs as (s' & Hs & _). cbn in Hs. apply to_set_Ok in Hs. tauto. }
  split.
  { cbn [read_as]. f_equal. clear Hb Hk. apply mapM_Ok_Forall2 in Ht. clear El. induction Ht as [|[k x] [k' s] d t Hxy _ IH]; [reflexivity|].
    cbn [map fst snd]. rewrite <- IH by (intros k0 x0 Hi; apply (Hl k0); right; exact Hi). f_equal.
    apply bind_Ok in Hxy as (s' & Hs & E). injection E as <- <-. destruct (Hl k x (or_introl eq_refl)) as [l ->]. cbn in Hs. apply to_set_Ok in Hs as [-> _]. reflexivity. }
  intros w. rewrite (In_concat_mapM _ _ _ Hb). split.
  - intros ([k x] & ws & Hi & Hf & Hw). apply bind_Ok in Hf as (b & Hb' & Hf). cbn [fst snd] in *. injection Hf as <-.
    apply in_es_Ok in Hb' as [_ Hb']. destruct b.
    + apply in_map_iff in Hw as (y & <- & Hy). apply filter_In in Hy as [Hy Hn]. destruct (Hl k x Hi) as [l ->]. cbn in Hy.
      split; [exists d, l; auto|]. split; [apply Hb'; reflexivity|]. intros Hv. apply in_vars_iff in Hv. rewrite Hv in Hn. discriminate Hn.
    + destruct Hw as [<- | []]. split; [right; eauto|]. intros Hn. apply Hb' in Hn. discriminate Hn.
  - destruct w as [e | x e].
    + intros [[(l' & E & He) | (d' & x & E & Hi)] Hn]; [discriminate E | injection E as <-].
      exists (e, x), [WEntity e]. split; [exact Hi|]. split; [|left; reflexivity]. cbn [fst snd].
      assert (in_es es e = Ok false) as ->; [|reflexivity]. apply in_es_Ok. split; [exact (Hk _ _ Hi)|]. split; [discriminate | tauto].
    + intros [(d' & l & E & Hi & Hx) [He Hn]]. injection E as <-. eexists (e, PList l), _. split; [exact Hi|]. cbn [fst snd].
      assert (in_es es e = Ok true) as ->; [apply in_es_Ok; split; [exact (Hk _ _ Hi)|]; tauto|]. split; [reflexivity|].
      apply in_map_iff. exists x. split; [reflexivity|]. apply filter_In. split; [exact Hx|].
      destruct (in_vars es e x) eqn:Ev; [|reflexivity]. exfalso. apply Hn, in_vars_iff, Ev.
Qed.
Lemma entities_total es o : a_list o -> exists v ws, list_entity_check es o = Ok (Some ws) /\ to_oval o = Ok (Some v).
Proof.
  intros (l & -> & H). assert (to_set l = Ok l) as Hs by (apply to_set_Ok; auto).
  destruct (proj2 (mapM_total (fun e => do b <- in_es es e; Ok (if b then [] else [WEntity e])) l)) as [bs Hb].
  { intros a Ha. destruct (in_es es a) as [b|] eqn:E; [eexists; reflexivity|]. exfalso. unfold in_es in E.
    rewrite (proj2 (hashable_simple a) (H a Ha)) in E. discriminate E. }
  exists (OSet l), (List.concat bs). cbn. rewrite Hb, Hs. split; reflexivity.
Qed.
Lemma tables_total es o : a_table o -> exists v ws, dict_to_list_variable_check es o = Ok (Some ws) /\ to_oval o = Ok (Some v).
Proof.
  intros (d & -> & H). cbn [dict_to_list_variable_check to_oval].
  assert (forallb (fun kv => is_list (snd kv)) d = true) as ->.
  { apply forallb_forall. intros [k x] Hi. destruct (H k x Hi) as [_ (l & -> & _)]. reflexivity. }
  match goal with |- exists v ws, bind (mapM ?f d) _ = _ /\ bind (mapM ?g d) _ = _ =>
    destruct (proj2 (mapM_total f d)) as [bs Hb]; [| destruct (proj2 (mapM_total g d)) as [t Ht]] end.
  - intros [k x] Hi. cbn [fst snd]. destruct (in_es es k) as [b|] eqn:E; [eexists; reflexivity|]. exfalso. unfold in_es in E.
    rewrite (proj2 (hashable_simple k) (proj1 (H k x Hi))) in E. discriminate E.
  - intros [k x] Hi. cbn [fst snd]. destruct (H k x Hi) as [_ (l & -> & Hl)]. cbn [elements].
    rewrite (proj2 (to_set_Ok l l)) by auto. eexists; reflexivity.
  - exists (ODict t), (List.concat bs). rewrite Hb, Ht. split; reflexivity.
Qed.

Lemma check_of es k chk : dget String.eqb k (checks es) = Some chk ->
  In k entity_options /\ chk = list_entity_check es \/ In k variable_options /\ chk = dict_to_list_variable_check es.
Proof.
  intros H. apply (dget_In String.eqb String.eqb_spec) in H. unfold checks in H.
  repeat (destruct H as [E | H]; [injection E as <- <-; first [left; split; [cbn; tauto | reflexivity] | right; split; [cbn; tauto | reflexivity]] |]). destruct H.
Qed.
Lemma check_known es k : In k entity_options \/ In k variable_options -> exists chk, dget String.eqb k (checks es) = Some chk.
Proof.
  intros [H | H]; unfold entity_options, variable_options in H; repeat (destruct H as [<- | H]; [eexists; reflexivity|]); destruct H.
Qed.
Lemma kinds k : In k entity_options -> In k variable_options -> False.
Proof.
  unfold entity_options, variable_options. intros H K. repeat (destruct H as [<- | H]; [cbn in K; intuition congruence|]). destruct H.
Qed.

(** one item of a dict of options *)
Lemma read_option_Ok es ks acc kv r : read_option es ks acc kv = Ok r ->
  well_formed kv /\ exists v ws, r = (dset String.eqb (fst kv) v (fst acc), snd acc ++ ws) /\ read_as (snd kv) v /\ forall w, In w ws <-> warns es (snd kv) w.
Proof.
  unfold read_option. destruct (dget String.eqb (fst kv) (checks es)) as [chk|] eqn:E; [|discriminate]. intros H.
  apply bind_Ok in H as ([ws|] & Hc & H); [|discriminate H]. apply bind_Ok in H as (v & Hv & H). injection H as <-.
  assert (exists x, v = Some x) as [x ->].
  { destruct (snd kv); cbn in Hv; [| | apply bind_Ok in Hv as (s & _ & Hv); injection Hv as <-; eauto | apply bind_Ok in Hv as (s & _ & Hv); injection Hv as <-; eauto].
    all: exfalso; destruct (check_of es _ _ E) as [[_ ->] | [_ ->]]; discriminate Hc. }
  destruct (check_of es _ _ E) as [[Hk ->] | [Hk ->]].
  - destruct (entities_ok es _ _ Hc _ Hv) as (Hl & Hr & Hw). split; [left; auto|]. exists x, ws. auto.
  - destruct (tables_ok es _ _ Hc _ Hv) as (Hl & Hr & Hw). split; [right; auto|]. exists x, ws. auto.
Qed.
Lemma read_option_total es ks acc kv : well_formed kv -> exists r, read_option es ks acc kv = Ok r.
Proof.
  intros H. unfold read_option. destruct (check_known es (fst kv)) as [chk E]; [destruct H as [[H _] | [H _]]; auto|]. rewrite E.
  destruct (check_of es _ _ E) as [[Hk ->] | [Hk ->]]; destruct H as [[Hk' Hs] | [Hk' Hs]]; try (exfalso; eapply kinds; eassumption).
  - destruct (entities_total es _ Hs) as (v & ws & -> & Hv). cbn [bind]. rewrite Hv. eexists; reflexivity.
  - destruct (tables_total es _ Hs) as (v & ws & -> & Hv). cbn [bind]. rewrite Hv. eexists; reflexivity.
Qed.

Lemma fold_Ok es ks d acc r : foldM (read_option es ks) d acc = Ok r ->
  Forall well_formed d /\
  (forall w, In w (snd r) <-> In w (snd acc) \/ exists kv, In kv d /\ warns es (snd kv) w) /\
  (NoDup (map fst d) -> forall k, match dget String.eqb k d with
                                  | Some o => exists v, dget String.eqb k (fst r) = Some v /\ read_as o v
                                  | None => dget String.eqb k (fst r) = dget String.eqb k (fst acc)
                                  end).
Proof.
  revert acc. induction d as [|[k0 o0] d IH]; intros acc H.
  - injection H as <-. split; [constructor|]. split; [|reflexivity]. intros w. split; [auto|]. intros [Hw | (kv & [] & _)]. exact Hw.
  - cbn [foldM] in H. apply bind_Ok in H as (acc' & H0 & H). destruct (read_option_Ok _ _ _ _ _ H0) as (Hf & v & ws & -> & Hr & Hw). cbn [fst snd] in *.
    destruct (IH _ H) as (Hd & Hws & Hk). cbn [fst snd] in *. split; [constructor; assumption|]. split.
    + intros w. rewrite Hws, in_app_iff, Hw. split.
      * intros [[Ha | Ha] | (kv & Hi & Ha)]; [auto | right; exists (k0, o0); cbn; auto | right; exists kv; cbn; auto].
      * intros [Ha | (kv & [<- | Hi] & Ha)]; [auto | auto | right; eauto].
    + intros Hn k. inversion Hn as [|? ? Hnk Hn']; subst. specialize (Hk Hn' k). cbn [dget].
      destruct (String.eqb_spec k k0) as [-> | Hne].
      * destruct (dget String.eqb k0 d) eqn:E; [exfalso; apply Hnk; apply (dget_In String.eqb String.eqb_spec) in E; apply (in_map fst) in E; exact E|].
        rewrite Hk. rewrite (dget_dset_same String.eqb String.eqb_spec). eauto.
      * destruct (dget String.eqb k d); [exact Hk|]. rewrite Hk. apply (dget_dset_other String.eqb String.eqb_spec). exact Hne.
Qed.
Lemma fold_total es ks d acc : Forall well_formed d -> exists r, foldM (read_option es ks) d acc = Ok r.
Proof.
  intros H. revert acc. induction H as [|kv d Hkv _ IH]; intros acc; [eexists; reflexivity|]. cbn [foldM].
  destruct (read_option_total es ks acc kv Hkv) as [r ->]. cbn [bind]. apply IH.
Qed.

(** *** A dict of options is accepted exactly when each option is known and has the documented form. *)
Theorem C88_accepted es ks d : (exists r, init_option_dict es ks d = Ok r) <-> Forall well_formed d.
Proof.
  unfold init_option_dict. split.
  - intros [r H]. apply bind_Ok in H as (r' & H & _). apply fold_Ok in H. tauto.
  - intros H. destruct (fold_total es ks d ([], []) H) as [r ->]. eexists; reflexivity.
Qed.

(** *** When it is accepted, each option is read with exactly the names written, and nothing is added. *)
Theorem C88_kept es ks d r ws : init_option_dict es ks d = Ok (r, ws) -> NoDup (map fst d) ->
  (forall k o, In (k, o) d -> exists v, dget String.eqb k r = Some v /\ read_as o v) /\
  (forall k v, dget String.eqb k r = Some v -> ~ In k (map fst d) -> (k = "ignore_variables"%string /\ v = ODict []) \/ (k = "ignore_entities"%string /\ v = OSet [])).
Proof.
  unfold init_option_dict. intros H Hn. apply bind_Ok in H as (r' & H & E). destruct (fold_Ok _ _ _ _ _ H) as (_ & _ & Hk). specialize (Hk Hn).
  cbn zeta in E. injection E as <- _. destruct r' as [r' ws']. cbn [fst snd] in *.
  set (a := match dget String.eqb "ignore_variables" r' with Some _ => r' | None => dset String.eqb "ignore_variables" (ODict []) r' end).
  assert (forall k, dget String.eqb k a = match dget String.eqb k r' with Some v => Some v | None => if String.eqb k "ignore_variables" then Some (ODict []) else None end) as Ha.
  { intros k. unfold a. destruct (dget String.eqb "ignore_variables" r') eqn:E.
    - destruct (String.eqb_spec k "ignore_variables") as [-> | Hne]; [rewrite E; reflexivity|]. destruct (dget String.eqb k r'); reflexivity.
    - destruct (String.eqb_spec k "ignore_variables") as [-> | Hne]; [rewrite E; apply (dget_dset_same String.eqb String.eqb_spec)|].
      rewrite (dget_dset_other String.eqb String.eqb_spec) by exact Hne. destruct (dget String.eqb k r'); reflexivity. }
  assert (forall k, dget String.eqb k (match dget String.eqb "ignore_entities" a with Some _ => a | None => dset String.eqb "ignore_entities" (OSet []) a end)
            = match dget String.eqb k a with Some v => Some v | None => if String.eqb k "ignore_entities" then Some (OSet []) else None end) as Hb.
  { intros k. destruct (dget String.eqb "ignore_entities" a) eqn:E.
    - destruct (String.eqb_spec k "ignore_entities") as [-> | Hne]; [rewrite E; reflexivity|]. destruct (dget String.eqb k a); reflexivity.
    - destruct (String.eqb_spec k "ignore_entities") as [-> | Hne]; [rewrite E; apply (dget_dset_same String.eqb String.eqb_spec)|].
      rewrite (dget_dset_other String.eqb String.eqb_spec) by exact Hne. destruct (dget String.eqb k a); reflexivity. }
  split.
  - intros k o Hi. specialize (Hk k). rewrite (dget_NoDup_In String.eqb String.eqb_spec k o d Hn Hi) in Hk. destruct Hk as (v & Hv & Hr).
    exists v. split; [|exact Hr]. rewrite Hb, Ha, Hv. reflexivity.
  - intros k v Hv Hni. specialize (Hk k). rewrite (proj2 (dget_None String.eqb String.eqb_spec k d) Hni) in Hk. cbn in Hk.
    rewrite Hb, Ha, Hk in Hv. destruct (String.eqb_spec k "ignore_variables") as [-> | Hne]; [injection Hv as <-; auto|].
    destruct (String.eqb_spec k "ignore_entities") as [-> | Hne']; [injection Hv as <-; auto | discriminate Hv].
Qed.

(** *** The search uses exactly the names written, each for the option they were written for. *)
Lemma names_of_In l s : In s (names_of l) <-> In (PStr s) l.
Proof.
  unfold names_of. rewrite in_flat_map. split.
  - intros (v & Hv & Hs). destruct v; cbn in Hs; try (destruct Hs; fail). destruct Hs as [<- | []]. exact Hv.
  - intros H. exists (PStr s). split; [exact H | left; reflexivity].
Qed.
Lemma table_of_In d e l : In (e, l) (table_of d) <-> exists x, In (PStr e, x) d /\ l = names_of x.
Proof.
  unfold table_of. rewrite in_flat_map. split.
  - intros ([v x] & Hv & Hs). cbn in Hs. destruct v; cbn in Hs; try (destruct Hs; fail). destruct Hs as [E | []]. injection E as <- <-. eauto.
  - intros (x & H & ->). exists (PStr e, x). split; [exact H | left; reflexivity].
Qed.
Lemma list_used o l : read_as o (OSet l) -> uses_names (Some o) (Some (names_of l)).
Proof.
  cbn. intros -> s. rewrite names_of_In. split; [intros H; left; eauto|]. intros [(l' & E & H) | (d & x & E & _)]; [injection E as <-; exact H | discriminate E].
Qed.
Lemma table_used o t : read_as o (ODict t) -> uses_table (Some o) (Some (table_of t)).
Proof.
  cbn. intros ->. split.
  - intros e. rewrite in_map_iff. split.
    + intros ([e' l] & <- & H). apply table_of_In in H as (x & H & _). right. eexists _, (PList x). split; [reflexivity|].
      apply in_map_iff. exists (PStr e', x). auto.
    + intros [(l' & E & H) | (d & x & E & H)]; [discriminate E|]. injection E as <-. apply in_map_iff in H as ([k y] & E & H). cbn in E. injection E as -> <-.
      exists (e, names_of y). split; [reflexivity|]. apply table_of_In. eauto.
  - intros e s. split.
    + intros (l & H & Hs). apply table_of_In in H as (x & H & ->). apply names_of_In in Hs. eexists _, x. split; [reflexivity|]. split; [|exact Hs].
      apply in_map_iff. exists (PStr e, x). auto.
    + intros (d & l & E & H & Hs). injection E as <-. apply in_map_iff in H as ([k y] & E & H). cbn in E. injection E as -> <-.
      exists (names_of y). split; [apply table_of_In; eauto | apply names_of_In, Hs].
Qed.
Theorem C88_used es ks d r ws : init_option_dict es ks d = Ok (r, ws) -> NoDup (map fst d) ->
  let written k := dget String.eqb k d in
  let or_empty := fun (o : option pv) (e : pv) => Some (match o with Some v => v | None => e end) in
  uses_names (written "include_entities"%string) (o_inc_e (popt_of r)) /\
  uses_names (or_empty (written "ignore_entities"%string) (PList [])) (Some (o_ign_e (popt_of r))) /\
  uses_table (written "include_variables"%string) (o_inc_v (popt_of r)) /\
  uses_table (or_empty (written "ignore_variables"%string) (PDict [])) (Some (o_ign_v (popt_of r))) /\
  uses_names (written "include_groupby_entities"%string) (o_inc_ge (popt_of r)) /\
  uses_names (written "ignore_groupby_entities"%string) (o_ign_ge (popt_of r)) /\
  uses_table (written "include_groupby_variables"%string) (o_inc_gv (popt_of r)) /\
  uses_table (written "ignore_groupby_variables"%string) (o_ign_gv (popt_of r)).
Proof.
  intros H Hn. cbn zeta. destruct (C88_kept _ _ _ _ _ H Hn) as [Hk Ha].
  assert (Forall well_formed d) as Hf by (apply (C88_accepted es ks); eauto). rewrite Forall_forall in Hf.
  assert (forall k o, dget String.eqb k d = Some o -> In (k, o) d) as Hd by (intros k o; apply (dget_In String.eqb String.eqb_spec)).
  assert (forall k, In k entity_options -> forall o, dget String.eqb k d = Some o -> exists l, get_set k r = Some (names_of l) /\ read_as o (OSet l)) as Hs.
  { intros k Hi o Ho. destruct (Hk k o (Hd _ _ Ho)) as (v & Hv & Hr). destruct (Hf _ (Hd _ _ Ho)) as [[_ (l & E & _)] | [Hi' _]]; [|exfalso; exact (kinds _ Hi Hi')].
    cbn in E. subst o. unfold get_set. rewrite Hv. destruct v as [l'|t]; cbn in Hr; [|discriminate Hr]. exists l'. split; [reflexivity | exact Hr]. }
  assert (forall k, In k variable_options -> forall o, dget String.eqb k d = Some o -> exists t, get_dict k r = Some (table_of t) /\ read_as o (ODict t)) as Ht.
  { intros k Hi o Ho. destruct (Hk k o (Hd _ _ Ho)) as (v & Hv & Hr). destruct (Hf _ (Hd _ _ Ho)) as [[Hi' _] | [_ (l & E & _)]]; [exfalso; exact (kinds _ Hi' Hi)|].
    cbn in E. subst o. unfold get_dict. rewrite Hv. destruct v as [l'|t]; cbn in Hr; [discriminate Hr|]. exists t. split; [reflexivity | exact Hr]. }
  assert (forall k, dget String.eqb k d = None -> k <> "ignore_variables"%string -> k <> "ignore_entities"%string -> dget String.eqb k r = None) as Hno.
  { intros k E N1 N2. destruct (dget String.eqb k r) as [v|] eqn:Er; [|reflexivity]. exfalso. apply (dget_None String.eqb String.eqb_spec) in E.
    destruct (Ha k v Er E) as [[E' _] | [E' _]]; congruence. }
  assert (forall k, In k entity_options -> k <> "ignore_entities"%string -> uses_names (dget String.eqb k d) (get_set k r)) as Us.
  { intros k Hi N. destruct (dget String.eqb k d) as [o|] eqn:E.
    - destruct (Hs k Hi o E) as (l & -> & Hr). apply list_used, Hr.
    - unfold get_set. rewrite (Hno k E); [exact I | intros ->; cbn in Hi; intuition congruence | exact N]. }
  assert (forall k, In k variable_options -> k <> "ignore_variables"%string -> uses_table (dget String.eqb k d) (get_dict k r)) as Ut.
  { intros k Hi N. destruct (dget String.eqb k d) as [o|] eqn:E.
    - destruct (Ht k Hi o E) as (l & -> & Hr). apply table_used, Hr.
    - unfold get_dict. rewrite (Hno k E); [exact I | exact N | intros ->; cbn in Hi; intuition congruence]. }
  cbn [popt_of o_inc_e o_ign_e o_inc_v o_ign_v o_inc_ge o_ign_ge o_inc_gv o_ign_gv].
  split; [apply Us; [cbn; tauto | discriminate]|]. split.
  { destruct (dget String.eqb "ignore_entities" d) as [o|] eqn:E.
    - destruct (Hs _ ltac:(cbn; tauto) o E) as (l & -> & Hr). apply list_used, Hr.
    - unfold get_set. destruct (dget String.eqb "ignore_entities" r) as [v|] eqn:Er; [|apply (list_used (PList []) []); reflexivity].
      apply (dget_None String.eqb String.eqb_spec) in E. destruct (Ha _ v Er E) as [[E' _] | [_ ->]]; [discriminate E'|]. apply (list_used (PList []) []). reflexivity. }
  split; [apply Ut; [cbn; tauto | discriminate]|]. split.
  { destruct (dget String.eqb "ignore_variables" d) as [o|] eqn:E.
    - destruct (Ht _ ltac:(cbn; tauto) o E) as (l & -> & Hr). apply table_used, Hr.
    - unfold get_dict. destruct (dget String.eqb "ignore_variables" r) as [v|] eqn:Er; [|apply (table_used (PDict []) []); reflexivity].
      apply (dget_None String.eqb String.eqb_spec) in E. destruct (Ha _ v Er E) as [[_ ->] | [E' _]]; [|discriminate E']. apply (table_used (PDict []) []). reflexivity. }
  split; [apply Us; [cbn; tauto | discriminate]|]. split; [apply Us; [cbn; tauto | discriminate]|].
  split; (apply Ut; [cbn; tauto | discriminate]).
Qed.

(** *** When it is accepted, there is a warning for each entity and variable that does not exist, and for no other. *)
Theorem C88_warned es ks d r ws : init_option_dict es ks d = Ok (r, ws) ->
  (forall e, In (WEntity e) ws <-> exists k o, In (k, o) d /\ mentions_entity o e /\ ~ has_entity es e) /\
  (forall x e, In (WVariable x e) ws <-> exists k o, In (k, o) d /\ mentions_variable o x e /\ has_entity es e /\ ~ has_variable es e x).
Proof.
  unfold init_option_dict. intros H. apply bind_Ok in H as (r' & H & E). destruct (fold_Ok _ _ _ _ _ H) as (_ & Hw & _). injection E as _ <-. cbn in Hw.
  split; [intros e | intros x e]; rewrite Hw.
  - split; [intros [[] | ([k o] & Hi & Hm)]; exists k, o; auto | intros (k & o & Hi & Hm); right; exists (k, o); auto].
  - split; [intros [[] | ([k o] & Hi & Hm)]; exists k, o; auto | intros (k & o & Hi & Hm); right; exists (k, o); auto].
Qed.

(** *** The error says what is wrong when the keys are names: KeyError for the first option that is not known, TypeError otherwise. *)
Lemma fold_fails es ks d1 kv d2 acc : Forall well_formed d1 -> ~ well_formed kv ->
  foldM (read_option es ks) (d1 ++ kv :: d2) acc = match dget String.eqb (fst kv) (checks es) with None => Err (complain ks KeyError) | Some _ => Err TypeError end.
Proof.
  intros H Hn. revert acc. induction H as [|x d1 Hx _ IH]; intros acc; cbn [app foldM].
  2:{ destruct (read_option_total es ks acc x Hx) as [r ->]. cbn [bind]. apply IH. }
  assert (forall o e, list_entity_check es o = Err e -> e = TypeError) as He.
  { intros o e. destruct o as [| |l|]; cbn; try discriminate. assert (forall e, mapM (fun e0 => do b <- in_es es e0; Ok (if b then [] else [WEntity e0])) l = Err e -> e = TypeError) as Hm.
    { clear. induction l as [|a l IHl]; intros e; cbn [mapM]; [discriminate|]. unfold in_es at 1. destruct (hashable a); cbn [bind].
      - destruct (mapM _ l); cbn; [discriminate|]. intros E. injection E as ->. apply IHl. reflexivity.
      - intros E. injection E as <-. reflexivity. }
    destruct (mapM _ l); cbn; [discriminate|]. intros E. injection E as ->. apply Hm. reflexivity. }
  assert (forall o e, dict_to_list_variable_check es o = Err e -> e = TypeError) as He'.
  { intros o e. destruct o as [| | |d]; cbn; try discriminate. destruct (forallb _ d); [|discriminate].
    match goal with |- context [mapM ?f d] => assert (forall e, mapM f d = Err e -> e = TypeError) as Hm end.
    { clear. induction d as [|a l IHl]; intros e; cbn [mapM]; [discriminate|]. unfold in_es at 1. destruct (hashable (fst a)); cbn [bind].
      - destruct (mapM _ l); cbn; [discriminate|]. intros E. injection E as ->. apply IHl. reflexivity.
      - intros E. injection E as <-. reflexivity. }
    destruct (mapM _ d); cbn; [discriminate|]. intros E. injection E as ->. apply Hm. reflexivity. }
  assert (forall l e, to_set l = Err e -> e = TypeError) as Hs by (intros l e; unfold to_set; destruct (forallb _ l); congruence).
  assert (forall o e, to_oval o = Err e -> e = TypeError) as Ho.
  { intros o e. destruct o as [| |l|d]; cbn; try discriminate.
    - destruct (to_set l) eqn:E; cbn; [discriminate|]. intros E'. injection E' as <-. exact (Hs _ _ E).
    - match goal with |- context [mapM ?f d] => assert (forall e, mapM f d = Err e -> e = TypeError) as Hm end.
      { clear - Hs. induction d as [|a l IHl]; intros e; cbn [mapM]; [discriminate|]. destruct (to_set (elements (snd a))) eqn:E; cbn [bind].
        - destruct (mapM _ l); cbn; [discriminate|]. intros E'. injection E' as ->. apply IHl. reflexivity.
        - intros E'. injection E' as <-. exact (Hs _ _ E). }
      destruct (mapM _ d); cbn; [discriminate|]. intros E. injection E as ->. apply Hm. reflexivity. }
  destruct (read_option es ks acc kv) as [r | e] eqn:E; [exfalso; apply Hn; exact (proj1 (read_option_Ok _ _ _ _ _ E))|]. cbn [bind].
  unfold read_option in E. destruct (dget String.eqb (fst kv) (checks es)) as [chk|] eqn:Ec; [|rewrite E; reflexivity].
  f_equal. destruct (chk (snd kv)) as [[ws|] | e'] eqn:Ek; cbn [bind] in E.
  - destruct (to_oval (snd kv)) eqn:Eo; cbn [bind] in E; [discriminate E|]. injection E as <-. exact (Ho _ _ Eo).
  - injection E as <-. unfold complain. destruct (forallb _ ks); reflexivity.
  - injection E as <-. destruct (check_of es _ _ Ec) as [[_ ->] | [_ ->]]; eauto.
Qed.
Theorem C88_error_partial es ks d1 k o d2 : Forall well_formed d1 -> ~ well_formed (k, o) -> (forall x, In x ks -> exists n, x = UName n) ->
  (~ In k (entity_options ++ variable_options) -> init_option_dict es ks (d1 ++ (k, o) :: d2) = Err KeyError) /\
  (In k (entity_options ++ variable_options) -> init_option_dict es ks (d1 ++ (k, o) :: d2) = Err TypeError).
Proof.
  intros H Hn Hk. unfold init_option_dict. rewrite (fold_fails es ks d1 (k, o) d2 ([], []) H Hn). cbn [fst]. split; intros Hi.
  - destruct (dget String.eqb k (checks es)) eqn:E.
    + exfalso. apply Hi, in_app_iff. destruct (check_of es _ _ E) as [[Hx _] | [Hx _]]; auto.
    + cbn [bind]. f_equal. unfold complain. replace (forallb _ ks) with true; [reflexivity|]. symmetry. apply forallb_forall.
      intros x Hx. destruct (Hk x Hx) as [n ->]. reflexivity.
  - destruct (check_known es k) as [chk ->]; [apply in_app_iff, Hi | reflexivity].
Qed.
(** The error of a misspelt option is another one when the options are given for a class: its message cannot be built. *)
Theorem C88_error_refuted : exists es ks k o, ~ In k (entity_options ++ variable_options) /\ init_option_dict es ks [(k, o)] = Err TypeError.
Proof. exists [], [UClass "count"], "ignore_entites"%string, (PList []). split; [cbn; intuition congruence | reflexivity]. Qed.

(** ** All options *)
(** the keys of a request, the classes replaced by their names, and its dicts *)
Definition all_keys (u : uraw) : list okey := flat_map (fun g => map option_key (fst g)) u.
Definition dicts (g : list ukey * (list (string * pv) + list (list (string * pv)))) : list (list (string * pv)) := match snd g with inl d => [d] | inr ds => ds end.
Definition fits (arity_of : ukey -> option nat) (g : list ukey * (list (string * pv) + list (list (string * pv)))) : Prop :=
  match snd g with inl _ => True | inr ds => forall k, In k (fst g) -> arity_of k = Some (List.length ds) end.

Lemma okey_eqb_spec a b : reflect (a = b) (okey_eqb a b).
Proof.
  destruct a as [i|n], b as [j|m]; cbn; try (constructor; congruence).
  - destruct (Nat.eqb_spec i j); constructor; congruence.
  - destruct (String.eqb_spec n m); constructor; congruence.
Qed.
Lemma keys_fold {V} (os : V) ks acc : 
  (exists r, foldM (fun acc k => match dget okey_eqb (okey_of k) acc with Some _ => Err KeyError | None => Ok (dset okey_eqb (okey_of k) os acc) end) ks acc = Ok r)
  <-> NoDup (map okey_of ks) /\ forall k, In k (map okey_of ks) -> ~ In k (map fst acc).
Proof.
  revert acc. induction ks as [|k ks IH]; intros acc; cbn [foldM map].
  - split; [intros _; split; [constructor | intros k []] | eexists; reflexivity].
  - destruct (dget okey_eqb (okey_of k) acc) eqn:E; cbn [bind].
    + split; [intros [r H]; discriminate H|]. intros [_ H]. exfalso. apply (H (okey_of k) (or_introl eq_refl)).
      apply (dget_In okey_eqb okey_eqb_spec) in E. apply (in_map fst) in E. exact E.
    + apply (dget_None okey_eqb okey_eqb_spec) in E. rewrite IH.
      assert (forall x, In x (map fst (dset okey_eqb (okey_of k) os acc)) <-> x = okey_of k \/ In x (map fst acc)) as Hs.
      { intros x. rewrite (dset_keys okey_eqb okey_eqb_spec). destruct (existsb _ _) eqn:Ee.
        - exfalso. apply existsb_exists in Ee as (y & Hy & Ee). destruct (okey_eqb_spec (okey_of k) y) as [Ey | ]; [apply E; rewrite Ey; exact Hy | discriminate].
        - rewrite in_app_iff. cbn. intuition congruence. }
      split.
      * intros [Hn H]. split; [constructor; [|exact Hn]; intros Hi; apply (H _ Hi), Hs; auto|].
        intros x [<- | Hx]; [exact E|]. intros Hi. apply (H x Hx), Hs. auto.
      * intros [Hn H]. inversion Hn as [|? ? Hk Hn']; subst. split; [exact Hn'|]. intros x Hx Hi. apply Hs in Hi as [-> | Hi]; [auto|].
        exact (H x (or_intror Hx) Hi).
Qed.

Lemma keys_after {V} (os : V) ks acc r :
  foldM (fun acc k => match dget okey_eqb (okey_of k) acc with Some _ => Err KeyError | None => Ok (dset okey_eqb (okey_of k) os acc) end) ks acc = Ok r ->
  map fst r = map fst acc ++ map okey_of ks.
Proof.
  revert acc. induction ks as [|k ks IH]; intros acc; cbn [foldM map]; intros H.
  - injection H as <-. rewrite app_nil_r. reflexivity.
  - destruct (dget okey_eqb (okey_of k) acc) eqn:E; cbn [bind] in H; [discriminate H|]. rewrite (IH _ H).
    rewrite (dset_keys okey_eqb okey_eqb_spec). apply (dget_None okey_eqb okey_eqb_spec) in E.
    rewrite (proj2 (existsb_eqb_nIn okey_eqb okey_eqb_spec _ _) E). rewrite <- app_assoc. reflexivity.
Qed.
Lemma NoDup_app_iff {A} (a b : list A) : NoDup (a ++ b) <-> NoDup a /\ NoDup b /\ forall x, In x b -> ~ In x a.
Proof.
  induction a as [|x a IH]; cbn [app].
  - split; [intros H; split; [constructor | split; [exact H | intros x _ []]] | tauto].
  - split.
    + intros H. inversion H as [|? ? Hx Hn]; subst. apply IH in Hn as (Ha & Hb & Hd). rewrite in_app_iff in Hx. split; [constructor; tauto|]. split; [exact Hb|].
      intros y Hy [<- | Hi]; [tauto | exact (Hd y Hy Hi)].
    + intros (Ha & Hb & Hd). inversion Ha as [|? ? Hx Hn]; subst. constructor.
      * rewrite in_app_iff. intros [Hi | Hi]; [auto | exact (Hd x Hi (or_introl eq_refl))].
      * apply IH. split; [exact Hn|]. split; [exact Hb|]. intros y Hy Hi. exact (Hd y Hy (or_intror Hi)).
Qed.
Lemma read_group_iff es ar acc g : (exists r, read_group es ar acc g = Ok r) <->
  (forall d, In d (dicts g) -> Forall well_formed d) /\ fits ar g /\ NoDup (map okey_of (fst g)) /\ forall k, In k (map okey_of (fst g)) -> ~ In k (map fst (fst acc)).
Proof.
  destruct g as [ks [d | ds]]; unfold read_group, dicts, fits; cbn [fst snd].
  - split.
    + intros [r H]. apply bind_Ok in H as (os & H0 & H). apply bind_Ok in H0 as (x & H0 & _). apply bind_Ok in H as (fl & H & _).
      split; [intros d' [<- | []]; apply (C88_accepted es ks); eauto|]. split; [exact I|]. apply (keys_fold (map fst os)). eauto.
    + intros (Hd & _ & Hk). destruct (proj2 (C88_accepted es ks d) (Hd d (or_introl eq_refl))) as [x ->]. cbn [bind].
      destruct (proj2 (keys_fold (map fst [x]) ks (fst acc)) Hk) as [fl ->]. eexists; reflexivity.
  - split.
    + intros [r H]. apply bind_Ok in H as (os & H0 & H). apply bind_Ok in H0 as (us & Ha & H0). apply bind_Ok in H as (fl & H & _).
      split; [|split].
      * intros d Hd. apply (C88_accepted es ks). exact (proj1 (mapM_total _ _) (ex_intro _ os H0) d Hd).
      * intros k Hk. destruct (proj1 (mapM_total _ _) (ex_intro _ us Ha) k Hk) as [t Ht]. cbn in Ht. destruct (ar k) as [n|]; [|discriminate Ht].
        destruct (Nat.eqb_spec n (List.length ds)) as [En | ]; [rewrite En; reflexivity | discriminate Ht].
      * apply (keys_fold (map fst os)). eauto.
    + intros (Hd & Ha & Hk).
      match goal with |- context [mapM ?f ks] => destruct (proj2 (mapM_total f ks)) as [us Hus] end.
      { intros k Hi. rewrite (Ha k Hi), Nat.eqb_refl. eauto. }
      rewrite Hus. cbn [bind]. destruct (proj2 (mapM_total (init_option_dict es ks) ds)) as [os Hos]; [intros d Hi; apply C88_accepted, Hd, Hi|].
      rewrite Hos. cbn [bind]. destruct (proj2 (keys_fold (map fst os) ks (fst acc)) Hk) as [fl ->]. eexists; reflexivity.
Qed.
Lemma read_group_keys es ar acc g r : read_group es ar acc g = Ok r -> map fst (fst r) = map fst (fst acc) ++ map okey_of (fst g).
Proof.
  intros H. unfold read_group in H. apply bind_Ok in H as (os & _ & H). apply bind_Ok in H as (fl & H & E). injection E as <-. exact (keys_after _ _ _ _ H).
Qed.

(** *** All options are accepted exactly when each dict is well formed, lists of dicts have one for each input of each of their
    primitives, and no primitive is given twice. *)
Theorem C88_all_accepted es arity_of u : (exists r, read_options es arity_of u = Ok r) <->
  (forall g d, In g u -> In d (dicts g) -> Forall well_formed d) /\ (forall g, In g u -> fits arity_of g) /\ NoDup (all_keys u).
Proof.
  unfold read_options. assert (forall acc, (exists r, foldM (read_group es arity_of) u acc = Ok r) <->
    (forall g d, In g u -> In d (dicts g) -> Forall well_formed d) /\ (forall g, In g u -> fits arity_of g) /\ NoDup (all_keys u) /\ forall k, In k (all_keys u) -> ~ In k (map fst (fst acc))) as H.
  2:{ rewrite H. cbn. intuition. }
  unfold all_keys. change option_key with okey_of. induction u as [|g u IH]; intros acc; cbn [foldM flat_map].
  - split; [intros _ | eexists; reflexivity]. split; [intros g d []|]. split; [intros g []|]. split; [constructor | intros k []].
  - split.
    + intros [r H]. apply bind_Ok in H as (acc' & Hg & H). pose proof (read_group_keys _ _ _ _ _ Hg) as Hk.
      destruct (proj1 (read_group_iff es arity_of acc g) (ex_intro _ _ Hg)) as (G1 & G2 & G3 & G4).
      destruct (proj1 (IH acc') (ex_intro _ _ H)) as (I1 & I2 & I3 & I4). rewrite Hk in I4. split; [|split; [|split]].
      * intros x d [<- | Hx]; eauto.
      * intros x [<- | Hx]; eauto.
      * apply NoDup_app_iff. split; [exact G3|]. split; [exact I3|]. intros k Hk' Hi. apply (I4 k Hk'), in_app_iff. auto.
      * intros k Hi. apply in_app_iff in Hi as [Hi | Hi]; [exact (G4 k Hi)|]. intros Ha. apply (I4 k Hi), in_app_iff. auto.
    + intros (H1 & H2 & H3 & H4). apply NoDup_app_iff in H3 as (N1 & N2 & N3).
      destruct (proj2 (read_group_iff es arity_of acc g)) as [acc' Hg].
      { split; [intros d Hd; exact (H1 g d (or_introl eq_refl) Hd)|]. split; [apply H2; left; reflexivity|]. split; [exact N1|].
        intros k Hk. apply H4, in_app_iff. auto. }
      rewrite Hg. cbn [bind]. apply IH. rewrite (read_group_keys _ _ _ _ _ Hg). split; [intros x d Hx; apply H1; right; exact Hx|].
      split; [intros x Hx; apply H2; right; exact Hx|]. split; [exact N2|]. intros k Hk Hi. apply in_app_iff in Hi as [Hi | Hi]; [|exact (N3 k Hk Hi)].
      revert Hi. apply H4, in_app_iff. auto.
Qed.

(** *** What is read is what [M_Match] makes of the dicts read one by one (so C31 applies to it). *)
Inductive group_reads (es : esdict) : list ukey * (list (string * pv) + list (list (string * pv))) -> list okey * (popt + list popt) -> Prop :=
| one_dict ks d r ws : init_option_dict es ks d = Ok (r, ws) -> group_reads es (ks, inl d) (map option_key ks, inl (popt_of r))
| one_per_input ks ds rs : Forall2 (fun d r => exists x ws, init_option_dict es ks d = Ok (x, ws) /\ r = popt_of x) ds rs ->
    group_reads es (ks, inr ds) (map option_key ks, inr rs).
Definition popts_of (l : list (okey * list odict)) : list (okey * list popt) := map (fun kv => (fst kv, map popt_of (snd kv))) l.
Lemma dget_popts k l : dget okey_eqb k (popts_of l) = option_map (map popt_of) (dget okey_eqb k l).
Proof. induction l as [|[k' v] l IH]; [reflexivity|]. cbn. destruct (okey_eqb k k'); [reflexivity | exact IH]. Qed.
Lemma dset_popts k v l : popts_of (dset okey_eqb k v l) = dset okey_eqb k (map popt_of v) (popts_of l).
Proof. induction l as [|[k' v'] l IH]; [reflexivity|]. cbn. destruct (okey_eqb k k'); [reflexivity | apply (f_equal (cons _)); exact IH]. Qed.
Lemma keys_popts os ks acc r :
  foldM (fun acc k => match dget okey_eqb (okey_of k) acc with Some _ => Err KeyError | None => Ok (dset okey_eqb (okey_of k) os acc) end) ks acc = Ok r ->
  foldM (fun acc k => match dget okey_eqb k acc with Some _ => Err KeyError | None => Ok (dset okey_eqb k (map popt_of os) acc) end) (map okey_of ks) (popts_of acc) = Ok (popts_of r).
Proof.
  revert acc. induction ks as [|k ks IH]; intros acc H; cbn [map foldM] in *; [injection H as <-; reflexivity|].
  rewrite dget_popts. destruct (dget okey_eqb (okey_of k) acc); cbn [option_map bind] in *; [discriminate H|]. rewrite <- dset_popts. apply IH, H.
Qed.
Theorem C88_read es arity_of arity u u' r ws : (forall k, arity_of k = arity (option_key k)) -> Forall2 (group_reads es) u u' ->
  read_options es arity_of u = Ok (r, ws) -> init_primitive_options arity u' = Ok (popts_of r).
Proof.
  intros Har H. unfold read_options, init_primitive_options. change (@nil (okey * list popt)) with (popts_of []).
  generalize (@nil (okey * list odict)) as acc, (@nil warning) as w0. induction H as [|g g' u u' Hg _ IH]; intros acc w0 Hr; cbn [foldM] in *.
  - injection Hr as <- _. reflexivity.
  - apply bind_Ok in Hr as ([acc1 w1] & H1 & Hr). 
    assert (init_group arity (popts_of acc) g' = Ok (popts_of acc1)) as ->; [|cbn [bind]; exact (IH _ _ Hr)].
    unfold read_group in H1. apply bind_Ok in H1 as (os & H0 & H1). apply bind_Ok in H1 as (fl & Hf & E). injection E as <- _.
    destruct Hg as [ks d x ws' Hd | ks ds rs Hd]; cbn [fst snd] in *; unfold init_group; cbn [fst snd bind]; change option_key with okey_of in *.
    + rewrite Hd in H0. cbn [bind] in H0. injection H0 as <-. exact (keys_popts _ _ _ _ Hf).
    + apply bind_Ok in H0 as (us & Ha & H0).
      match goal with |- context [mapM ?f (map okey_of ks)] => destruct (proj2 (mapM_total f (map okey_of ks))) as [us' Hus] end.
      { intros k Hk. apply in_map_iff in Hk as (k0 & <- & Hk). destruct (proj1 (mapM_total _ _) (ex_intro _ us Ha) k0 Hk) as [t Ht]. cbn in Ht. rewrite Har in Ht.
        replace (List.length rs) with (List.length ds) by (clear - Hd; induction Hd; cbn; congruence). eauto. }
      rewrite Hus. cbn [bind]. replace rs with (map popt_of (map fst os)); [exact (keys_popts _ _ _ _ Hf)|].
      apply mapM_Ok_Forall2 in H0. clear - H0 Hd. revert os H0. induction Hd as [|d r ds rs (x & ws & Hx & ->) _ IH]; intros os H0; inversion H0 as [|? y ? os' Hy Hos]; subst; [reflexivity|].
      cbn [map]. rewrite Hx in Hy. injection Hy as <-. cbn [fst]. rewrite (IH _ Hos). reflexivity.
Qed.

(** *** A list of dicts for a primitive that does not exist is rejected. *)
Theorem C88_unknown_partial es arity_of u g ds k : In g u -> snd g = inr ds -> In k (fst g) -> arity_of k = None -> forall r, read_options es arity_of u <> Ok r.
Proof.
  intros Hg Hs Hk Ha r H. destruct (proj1 (C88_all_accepted es arity_of u) (ex_intro _ r H)) as (_ & Hf & _). specialize (Hf g Hg). unfold fits in Hf.
  rewrite Hs in Hf. specialize (Hf k Hk). congruence.
Qed.
(** Options given in one dict for a primitive that does not exist are accepted without a warning, whatever is misspelt in the name. *)
Theorem C88_unknown_refuted : exists es arity_of u k d, u = [([k], inl d)] /\ d <> [] /\ arity_of k = None /\ exists r, read_options es arity_of u = Ok (r, []).
Proof.
  exists [("logs", ["value"])]%string, (fun k => match k with UName "count" => Some 1%nat | _ => None end), [([UName "cuont"], inl [("ignore_entities"%string, PList [PStr "logs"])])].
  eexists _, _. split; [reflexivity|]. split; [discriminate|]. split; [reflexivity|]. eexists. reflexivity.
Qed.

Example C88_nonvacuous :
  let es := [("customers", ["id"; "age"]); ("logs", ["id"; "value"])]%string in
  let d := [("ignore_entities", PList [PStr "logs"; PStr "losg"]); ("include_variables", PDict [(PStr "customers", PList [PStr "age"; PStr "aeg"]); (PStr "lgos", PList [PStr "value"])])]%string in
  Forall well_formed d /\ NoDup (map fst d) /\
  init_option_dict es [UName "count"] d
  = Ok ([("ignore_entities", OSet [PStr "logs"; PStr "losg"]); ("include_variables", ODict [(PStr "customers", [PStr "age"; PStr "aeg"]); (PStr "lgos", [PStr "value"])]); ("ignore_variables", ODict [])],
        [WEntity (PStr "losg"); WVariable (PStr "aeg") (PStr "customers"); WEntity (PStr "lgos")])%string /\
  ~ well_formed ("ignore_entities"%string, PStr "logs").
Proof.
  cbn zeta. assert (H : exists r, init_option_dict [("customers", ["id"; "age"]); ("logs", ["id"; "value"])]%string [UName "count"]
    [("ignore_entities", PList [PStr "logs"; PStr "losg"]); ("include_variables", PDict [(PStr "customers", PList [PStr "age"; PStr "aeg"]); (PStr "lgos", PList [PStr "value"])])]%string = Ok r) by (eexists; reflexivity).
  split; [apply C88_accepted in H; exact H|]. split; [cbn; repeat constructor; cbn; intuition congruence|]. split; [reflexivity|].
  intros [[_ (l & E & _)] | [H1 _]]; [discriminate E | cbn in H1; intuition congruence].
Qed.
Example C88_all_nonvacuous :
  exists r, read_options [("logs", ["value"])]%string (fun k => match k with UName "trend" => Some 2%nat | _ => None end)
    [([UName "sum"; UClass "mean"], inl [("include_entities"%string, PList [PStr "logs"])]); ([UName "trend"], inr [[]; [("ignore_variables"%string, PDict [(PStr "logs", PList [PStr "value"])])]])] = Ok (r, []) /\ List.length r = 3%nat.
Proof. eexists. split; reflexivity. Qed.

Print Assumptions C88_accepted. Print Assumptions C88_kept. Print Assumptions C88_warned. Print Assumptions C88_error_partial. Print Assumptions C88_error_refuted.
Print Assumptions C88_all_accepted. Print Assumptions C88_read. Print Assumptions C88_unknown_partial. Print Assumptions C88_unknown_refuted.
Print Assumptions C88_used.
