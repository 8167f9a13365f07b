From Verif Require Import Base BaseFacts M_Schema S_Schema.

Lemma rel_eqb_spec a b : reflect (a = b) (rel_eqb a b).
Proof.
  unfold rel_eqb. destruct a as [a1 a2 a3 a4], b as [b1 b2 b3 b4]; simpl.
  destruct (String.eqb_spec a1 b1), (String.eqb_spec a3 b3), (String.eqb_spec a2 b2),
    (String.eqb_spec a4 b4); simpl; constructor; congruence.
Qed.

Lemma edge_eqb_spec a b : reflect (a = b) (edge_eqb a b).
Proof.
  unfold edge_eqb. destruct a as [x r], b as [y s]; simpl.
  destruct (Bool.eqb_spec x y), (rel_eqb_spec r s); simpl; constructor; congruence.
Qed.

Lemma chain_cons_inv src dst rels a r p b :
  chain src dst rels a (r :: p) b <-> a = src r /\ In r rels /\ chain src dst rels (dst r) p b.
Proof.
  split; [intros H; inversion H; subst; auto | intros (-> & H1 & H2); constructor; assumption].
Qed.

Lemma chain_nil_inv src dst rels a b : chain src dst rels a [] b <-> a = b.
Proof. split; [intros H; inversion H; reflexivity | intros ->; constructor]. Qed.

Lemma chain_app src dst rels a p q b :
  chain src dst rels a (p ++ q) b <-> exists c, chain src dst rels a p c /\ chain src dst rels c q b.
Proof.
  revert a; induction p as [|r p IH]; intros a; simpl.
  - split; [intros H; exists a; split; [constructor | exact H]|].
    intros (c & H1 & H2). apply chain_nil_inv in H1 as ->. exact H2.
  - rewrite chain_cons_inv, IH. split.
    + intros (-> & Hin & c & H1 & H2). exists c. split; [constructor; assumption | exact H2].
    + intros (c & H1 & H2). apply chain_cons_inv in H1 as (-> & Hin & H1). eauto.
Qed.

(** backward chains are reversed forward chains *)
Lemma chain_rev src dst rels a p b : chain src dst rels a p b -> chain dst src rels b (rev p) a.
Proof.
  induction 1 as [a|r p b Hin Hc IH]; simpl; [constructor|].
  apply chain_app. exists (dst r). split; [exact IH|]. constructor; [exact Hin | constructor].
Qed.

Lemma in_concat_mapM {A B C} (f : A -> res (list B)) (g : A -> list B -> list C) l subs c :
  mapM (fun r => do ds <- f r; Ok (g r ds)) l = Ok subs ->
  (In c (List.concat subs) <-> exists r ds, In r l /\ f r = Ok ds /\ In c (g r ds)).
Proof.
  intros H. apply mapM_Ok_Forall2 in H. induction H as [|r s l subs Hs Hl IH]; simpl.
  - split; [tauto|]. intros (r & ds & [] & _).
  - apply bind_Ok in Hs as (ds & Hf & He). injection He as <-.
    rewrite in_app_iff, IH. split.
    + intros [H|(r' & ds' & Hin & Hf' & Hc)]; [exists r, ds; auto | exists r', ds'; auto].
    + intros (r' & ds' & [->|Hin] & Hf' & Hc); [left | right; eauto].
      rewrite Hf in Hf'; injection Hf' as <-; exact Hc.
Qed.

Lemma mapM_total {A B} (f : A -> res B) l :
  (forall a, In a l -> exists b, f a = Ok b) -> exists bs, mapM f l = Ok bs.
Proof.
  induction l as [|a l IH]; intros H; simpl; [eauto|].
  destruct (H a) as (b & Hb); [left; reflexivity|]. rewrite Hb; simpl.
  destruct IH as (bs & Hbs); [intros; apply H; right; assumption|]. rewrite Hbs; simpl. eauto.
Qed.

Section FEP.
  Variable rels : list relationship.

  Lemma in_fwd r a : In r (get_forward_relationships rels a) <-> In r rels /\ r_ce r = a.
  Proof. unfold get_forward_relationships. rewrite filter_In, String.eqb_eq. tauto. Qed.

  Lemma fep_unfold fuel start seen :
    forward_entity_paths fuel rels start seen =
    if mem_str start seen then Ok [] else
    match fuel with
    | 0 => Err OutOfFuel
    | S fuel' =>
      do subs <- mapM (fun r =>
          do ds <- forward_entity_paths fuel' rels (r_pe r) (start :: seen);
          Ok (map (fun ep => (fst ep, r :: snd ep)) ds))
        (get_forward_relationships rels start);
      Ok ((start, []) :: List.concat subs)
    end.
  Proof. destruct fuel; reflexivity. Qed.

  (** exact content *)
  Lemma fep_In fuel start seen l :
    forward_entity_paths fuel rels start seen = Ok l ->
    forall b p, In (b, p) l <->
      forward_chain rels start p b /\ NoDup (visited start p) /\
      (forall e, In e (visited start p) -> ~ In e seen).
  Proof.
    revert start seen l; induction fuel as [|fuel IH]; intros start seen l H b p; rewrite fep_unfold in H;
      (destruct (mem_str start seen) eqn:Es;
       [ injection H as <-; split; [intros []|]; intros (_ & _ & Hd); exfalso;
         apply (Hd start); [left; reflexivity | apply mem_str_In; exact Es] |]).
    - discriminate.
    - apply mem_str_nIn in Es.
      apply bind_Ok in H as (subs & Hs & H). injection H as <-.
      assert (forall r, In r (get_forward_relationships rels start) ->
                exists ds, forward_entity_paths fuel rels (r_pe r) (start :: seen) = Ok ds) as Hall.
      { apply mapM_Ok_Forall2 in Hs. clear -Hs. induction Hs as [|r s l subs Hr Hl IHl]; [intros ? []|].
        intros r' [<-|Hin]; [|auto]. apply bind_Ok in Hr as (ds & Hds & _). eauto. }
      pose proof (fun c => in_concat_mapM _ (fun r ds => map (fun ep => (fst ep, r :: snd ep)) ds) _ _ c Hs) as Hc.
      cbn [In]. rewrite (Hc (b, p)). clear Hc Hs. unfold visited. split.
      + intros [He|(r & ds & Hr & Hds & Hin)].
        * injection He as <- <-. simpl. split; [constructor|]. split; [repeat constructor; intros []|].
          intros e [->|[]]; exact Es.
        * apply in_fwd in Hr as [Hr <-]. apply in_map_iff in Hin as ([b' p'] & He & Hin).
          simpl in He. injection He as -> <-.
          apply (IH _ _ _ Hds) in Hin as (Hch & Hnd & Hd).
          simpl. split; [apply chain_cons; assumption|]. split.
          -- constructor; [|exact Hnd]. intros Hin. apply (Hd (r_ce r)); [exact Hin | left; reflexivity].
          -- intros e [<-|Hin]; [exact Es|]. intros Hs. apply (Hd e); [exact Hin | right; exact Hs].
      + intros (Hch & Hnd & Hd). destruct p as [|r p].
        * apply chain_nil_inv in Hch as ->. left; reflexivity.
        * right. apply chain_cons_inv in Hch as (-> & Hr & Hch).
          simpl in Hnd. inversion Hnd as [|? ? Hni Hnd']; subst.
          assert (In r (get_forward_relationships rels (r_ce r))) as Hrf by (apply in_fwd; auto).
          destruct (Hall r Hrf) as (ds & Eds).
          exists r, ds. split; [exact Hrf|]. split; [exact Eds|].
          apply in_map_iff. exists (b, p). split; [reflexivity|].
          apply (IH _ _ _ Eds). split; [exact Hch|]. split; [exact Hnd'|].
          intros e He [<-|Hs]; [contradiction|]. apply (Hd e); [right; exact He | exact Hs].
  Qed.

  (** termination *)
  Definition unseen (u seen : list string) : list string := filter (fun e => negb (mem_str e seen)) u.

  Lemma unseen_cons u seen a :
    In a u -> ~ In a seen ->
    List.length (unseen u (a :: seen)) < List.length (unseen u seen).
  Proof.
    intros Hin Hs. unfold unseen.
    assert (forall l, List.length (filter (fun e => negb (mem_str e (a :: seen))) l) <=
                      List.length (filter (fun e => negb (mem_str e seen)) l)) as Hle.
    { induction l as [|x l IHl]; cbn [filter]; [lia|]. rewrite mem_str_cons.
      destruct (String.eqb x a), (mem_str x seen); cbn [negb orb List.length]; lia. }
    induction u as [|x u IHu]; [destruct Hin|].
    cbn [filter]. destruct Hin as [->|Hin].
    - rewrite mem_str_cons, String.eqb_refl. cbn [negb orb].
      apply mem_str_nIn in Hs. rewrite Hs. cbn [negb List.length]. specialize (Hle u). lia.
    - specialize (IHu Hin). rewrite mem_str_cons.
      destruct (String.eqb x a), (mem_str x seen); cbn [negb orb List.length]; lia.
  Qed.

  Lemma fep_terminates u fuel start seen :
    (forall r, In r rels -> In (r_pe r) u) -> In start u ->
    List.length (unseen u seen) <= fuel ->
    exists l, forward_entity_paths fuel rels start seen = Ok l.
  Proof.
    intros Hu. revert start seen; induction fuel as [|fuel IH]; intros start seen Hst Hlen; rewrite fep_unfold;
      (destruct (mem_str start seen) eqn:Es; [eauto|]).
    - exfalso. apply mem_str_nIn in Es. pose proof (unseen_cons u seen start Hst Es). lia.
    - apply mem_str_nIn in Es. pose proof (unseen_cons u seen start Hst Es) as Hlt.
      destruct (mapM_total (fun r =>
          do ds <- forward_entity_paths fuel rels (r_pe r) (start :: seen);
          Ok (map (fun ep => (fst ep, r :: snd ep)) ds)) (get_forward_relationships rels start)) as (subs & Hsubs).
      + intros r Hr. apply in_fwd in Hr as [Hr _].
        destruct (IH (r_pe r) (start :: seen)) as (ds & Hds); [apply Hu; exact Hr | lia|].
        rewrite Hds; simpl; eauto.
      + rewrite Hsubs; simpl; eauto.
  Qed.

  Lemma fep_top start : exists l, forward_entity_paths (path_fuel rels) rels start [] = Ok l.
  Proof.
    apply (fep_terminates (start :: map r_pe rels)).
    - intros r Hr; right; apply in_map; exact Hr.
    - left; reflexivity.
    - unfold path_fuel. rewrite <- (map_length r_pe rels).
      change (S (List.length (map r_pe rels))) with (List.length (start :: map r_pe rels)).
      unfold unseen. generalize (start :: map r_pe rels). intros l.
      induction l as [|x l IHl]; [simpl; lia|]. cbn [filter]. destruct (negb _); cbn [List.length]; lia.
  Qed.

  (** no duplicates *)
  Lemma NoDup_concat_map (l : list relationship) (subs : list (list (string * list relationship))) :
    NoDup l ->
    Forall2 (fun r s => NoDup s /\ forall ep, In ep s -> exists p, snd ep = r :: p) l subs ->
    NoDup (List.concat subs).
  Proof.
    intros Hnd H. induction H as [|r s l subs [Hs Hh] Hl IH]; simpl; [constructor|].
    inversion Hnd as [|? ? Hni Hnd']; subst.
    specialize (IH Hnd').
    induction s as [|x s IHs]; simpl; [exact IH|].
    inversion Hs as [|? ? Hx Hs']; subst.
    constructor.
    - rewrite in_app_iff. intros [Hin|Hin]; [contradiction|].
      destruct (Hh x) as (p & Hp); [left; reflexivity|].
      apply in_concat in Hin as (s' & Hs'in & Hxin).
      clear -Hl Hs'in Hxin Hp Hni. induction Hl as [|r' s2 l subs [_ Hh'] Hl IHl]; [destruct Hs'in|].
      destruct Hs'in as [<-|Hin].
      + destruct (Hh' x Hxin) as (p' & Hp'). rewrite Hp in Hp'. injection Hp' as -> _.
        apply Hni; left; reflexivity.
      + apply IHl; auto. intros Hr; apply Hni; right; exact Hr.
    - apply IHs; [exact Hs'|]. intros ep Hep; apply Hh; right; exact Hep.
  Qed.

  Lemma NoDup_filter' {A} (f : A -> bool) l : NoDup l -> NoDup (filter f l).
  Proof.
    induction 1 as [|a l Hni Hnd IH]; simpl; [constructor|].
    destruct (f a); [|exact IH]. constructor; [|exact IH]. rewrite filter_In; tauto.
  Qed.

  Lemma fep_NoDup fuel start seen l :
    NoDup rels -> forward_entity_paths fuel rels start seen = Ok l -> NoDup l.
  Proof.
    intros Hnd. revert start seen l; induction fuel as [|fuel IH]; intros start seen l H; rewrite fep_unfold in H;
      (destruct (mem_str start seen) eqn:Es; [injection H as <-; constructor|]).
    - discriminate.
    - apply bind_Ok in H as (subs & Hs & H). injection H as <-.
      assert (Forall2 (fun r s => NoDup s /\ forall ep, In ep s -> exists p, snd ep = r :: p)
                (get_forward_relationships rels start) subs) as HF.
      { apply mapM_Ok_Forall2 in Hs. clear -Hs IH. induction Hs as [|r s l subs Hr Hl IHl]; constructor; [|exact IHl].
        apply bind_Ok in Hr as (ds & Hds & He). injection He as <-. split.
        - apply FinFun.Injective_map_NoDup; [|eapply IH; exact Hds].
          intros [a p] [b q] He. simpl in He. congruence.
        - intros ep Hin. apply in_map_iff in Hin as (ep' & <- & _). simpl. eauto. }
      constructor.
      + intros Hin. apply in_concat in Hin as (s & Hin & Hx).
        clear -HF Hin Hx. induction HF as [|r s' l subs [_ Hh] Hl IHl]; [destruct Hin|].
        destruct Hin as [<-|Hin]; [destruct (Hh _ Hx) as (p & Hp); discriminate | auto].
      + eapply NoDup_concat_map; [|exact HF]. apply NoDup_filter'; exact Hnd.
  Qed.

  Lemma ffp_exact a b :
    exists ps, find_forward_paths rels a b = Ok ps /\
      (forall p, In p ps <-> forward_chain rels a p b /\ NoDup (visited a p)) /\
      (NoDup rels -> NoDup ps).
  Proof.
    destruct (fep_top a) as (l & Hl). unfold find_forward_paths. rewrite Hl. simpl.
    eexists; split; [reflexivity|]. split.
    - intros p. rewrite in_map_iff. split.
      + intros ([b' p'] & <- & Hin). apply filter_In in Hin as [Hin He]. apply String.eqb_eq in He. cbn [fst snd] in *. subst b'.
        apply (fep_In _ _ _ _ Hl) in Hin as (H1 & H2 & _). auto.
      + intros [H1 H2]. exists (b, p). split; [reflexivity|]. apply filter_In. split; [|apply String.eqb_refl].
        apply (fep_In _ _ _ _ Hl). split; [exact H1|]. split; [exact H2|]. intros e _ [].
    - intros Hnd. pose proof (fep_NoDup _ _ _ _ Hnd Hl) as Hl'. clear Hl.
      induction Hl' as [|[e p] l Hni Hl' IH]; simpl; [constructor|].
      destruct (String.eqb_spec e b) as [->|Hne]; simpl; [|exact IH].
      constructor; [|exact IH]. intros Hin. apply in_map_iff in Hin as ([e' p'] & He & Hin).
      simpl in He; subst p'. apply filter_In in Hin as [Hin He]. apply String.eqb_eq in He. simpl in He; subst e'.
      contradiction.
  Qed.

  Lemma fbp_exact a b :
    exists ps, find_backward_paths rels a b = Ok ps /\
      (forall p, In p ps <-> backward_chain rels a p b /\ NoDup (visited b (rev p))) /\
      (NoDup rels -> NoDup ps).
  Proof.
    destruct (ffp_exact b a) as (ps & Hps & Hin & Hnd). unfold find_backward_paths. rewrite Hps; simpl.
    eexists; split; [reflexivity|]. split.
    - intros p. rewrite in_map_iff. split.
      + intros (q & <- & Hq). apply Hin in Hq as [H1 H2]. split; [apply chain_rev; exact H1|].
        rewrite rev_involutive; exact H2.
      + intros [H1 H2]. exists (rev p). split; [apply rev_involutive|]. apply Hin. split; [|exact H2].
        apply chain_rev in H1. exact H1.
    - intros H. apply FinFun.Injective_map_NoDup; [|auto].
      intros x y Hxy. rewrite <- (rev_involutive x), <- (rev_involutive y). congruence.
  Qed.

  Lemma hufp_spec a b :
    NoDup rels ->
    match has_unique_forward_path rels a b with
    | Ok true => exists p, forward_chain rels a p b /\ NoDup (visited a p) /\
                   forall q, forward_chain rels a q b -> NoDup (visited a q) -> q = p
    | Ok false => exists p q, p <> q /\ forward_chain rels a p b /\ NoDup (visited a p) /\
                   forward_chain rels a q b /\ NoDup (visited a q)
    | Err e => e = RuntimeError /\ forall p, forward_chain rels a p b -> NoDup (visited a p) -> False
    end.
  Proof.
    intros Hr. destruct (ffp_exact a b) as (ps & Hps & Hin & Hnd). specialize (Hnd Hr).
    unfold has_unique_forward_path. rewrite Hps; simpl.
    destruct ps as [|p [|q ps]].
    - split; [reflexivity|]. intros p H1 H2. destruct (proj2 (Hin p)); auto.
    - exists p. destruct (proj1 (Hin p)) as [H1 H2]; [left; reflexivity|]. repeat (split; [assumption|]).
      intros q Hq1 Hq2. destruct (proj2 (Hin q)) as [H|[]]; auto.
    - inversion Hnd as [|? ? Hni _]; subst.
      destruct (proj1 (Hin p)) as [H1 H2]; [left; reflexivity|].
      destruct (proj1 (Hin q)) as [H3 H4]; [right; left; reflexivity|].
      destruct q as [|r q].
      + (* the empty path: then a = b and p must be empty too, contradiction *)
        exfalso. apply chain_nil_inv in H3. subst b.
        destruct p as [|r p]; [apply Hni; left; reflexivity|].
        assert (forall s x y, forward_chain rels x s y -> s <> [] -> In y (map r_pe s)) as Hlast.
        { clear. intros s x y H. induction H as [x|r s y Hr Hc IH]; [congruence|]. intros _. simpl.
          destruct s as [|r' s]; [left; apply chain_nil_inv in Hc; exact Hc | right; apply IH; congruence]. }
        unfold visited in H2. inversion H2 as [|? ? Hni' _]; subst.
        apply Hni'. apply (Hlast _ _ _ H1). congruence.
      + exists p, (r :: q). split; [intros ->; apply Hni; left; reflexivity|]. auto.
  Qed.
End FEP.

(** deep traversal *)
Section Deep.
  Variables (src dst : relationship -> string) (fw : bool) (rels : list relationship).
  Local Notation related := (related_entities src dst fw).
  Local Notation chain := (chain src dst rels).

  Lemma related_ok_iff fuel e :
    (exists l, related fuel rels e true = Ok l) <->
    ~ exists p b, chain e p b /\ List.length p = fuel.
  Proof.
    revert e; induction fuel as [|fuel IH]; intros e.
    - simpl. split; [intros (l & H); discriminate|]. intros H. exfalso; apply H.
      exists [], e. split; [constructor | reflexivity].
    - cbn [related_entities]. split.
      + intros (l & H) (p & b & Hc & Hlen). destruct p as [|r p]; [discriminate|].
        apply chain_cons_inv in Hc as (-> & Hr & Hc). injection Hlen as Hlen.
        apply bind_Ok in H as (subs & Hs & _). apply mapM_Ok_Forall2 in Hs.
        assert (exists ds, related fuel rels (dst r) true = Ok ds) as Hds.
        { clear -Hs Hr. assert (In r (filter (fun r0 => String.eqb (src r0) (src r)) rels)) as Hin.
          { apply filter_In; split; [exact Hr | apply String.eqb_refl]. }
          induction Hs as [|r' s l subs Hr' Hl IHl]; [destruct Hin|].
          destruct Hin as [->|Hin]; [|auto]. apply bind_Ok in Hr' as (ds & Hds & _). eauto. }
        apply IH in Hds. apply Hds. eauto.
      + intros Hno.
        destruct (mapM_total (fun r =>
            do ds <- related fuel rels (dst r) true;
            Ok ((dst r, [(fw, r)]) :: map (fun ep => (fst ep, (fw, r) :: snd ep)) ds))
          (filter (fun r => String.eqb (src r) e) rels)) as (subs & Hs).
        * intros r Hr. apply filter_In in Hr as [Hr He]. apply String.eqb_eq in He.
          destruct (proj2 (IH (dst r))) as (ds & Hds).
          { intros (p & b & Hc & Hlen). apply Hno. exists (r :: p), b. split; [|simpl; congruence].
            rewrite <- He. constructor; assumption. }
          rewrite Hds; simpl; eauto.
        * rewrite Hs; simpl; eauto.
  Qed.

  Lemma related_fuel_err fuel e x : related fuel rels e true = Err x -> x = OutOfFuel.
  Proof.
    revert e; induction fuel as [|fuel IH]; intros e; cbn [related_entities]; [congruence|].
    intros H. destruct (mapM _ _) as [subs|y] eqn:E; simpl in H; [discriminate|]. injection H as <-.
    revert E. generalize (filter (fun r => String.eqb (src r) e) rels). intros l.
    induction l as [|r l IHl]; simpl; [discriminate|].
    destruct (related fuel rels (dst r) true) as [ds|z] eqn:Ed; simpl.
    - destruct (mapM _ l) eqn:El; simpl; [discriminate|]. intros H. injection H as <-. auto.
    - intros H. injection H as <-. eauto.
  Qed.

  Lemma related_In fuel e l :
    related fuel rels e true = Ok l ->
    forall b p, In (b, p) l <-> exists q, p = map (fun r => (fw, r)) q /\ q <> [] /\ chain e q b.
  Proof.
    revert e l; induction fuel as [|fuel IH]; intros e l H b p; [discriminate|].
    cbn [related_entities] in H. apply bind_Ok in H as (subs & Hs & H). injection H as <-.
    assert (forall r, In r (filter (fun r => String.eqb (src r) e) rels) ->
              exists ds, related fuel rels (dst r) true = Ok ds) as Hall.
    { apply mapM_Ok_Forall2 in Hs. clear -Hs. induction Hs as [|r s l subs Hr Hl IHl]; [intros ? []|].
      intros r' [<-|Hin]; [|auto]. apply bind_Ok in Hr as (ds & Hds & _). eauto. }
    rewrite (in_concat_mapM _ (fun r ds => (dst r, [(fw, r)]) :: map (fun ep => (fst ep, (fw, r) :: snd ep)) ds) _ _ (b, p) Hs).
    split.
    - intros (r & ds & Hr & Hds & Hin). apply filter_In in Hr as [Hr He]. apply String.eqb_eq in He. subst e.
      destruct Hin as [He|Hin].
      + injection He as <- <-. exists [r]. split; [reflexivity|]. split; [congruence|].
        constructor; [exact Hr | constructor].
      + apply in_map_iff in Hin as ([b' p'] & He & Hin). simpl in He. injection He as -> <-.
        apply (IH _ _ Hds) in Hin as (q & -> & Hq & Hc).
        exists (r :: q). split; [reflexivity|]. split; [congruence|]. constructor; assumption.
    - intros (q & -> & Hq & Hc). destruct q as [|r q]; [congruence|].
      apply chain_cons_inv in Hc as (-> & Hr & Hc).
      assert (In r (filter (fun r0 => String.eqb (src r0) (src r)) rels)) as Hrf.
      { apply filter_In; split; [exact Hr | apply String.eqb_refl]. }
      destruct (Hall r Hrf) as (ds & Hds). exists r, ds. split; [exact Hrf|]. split; [exact Hds|].
      destruct q as [|r' q].
      + apply chain_nil_inv in Hc. subst b. left; reflexivity.
      + right. apply in_map_iff. exists (b, map (fun r => (fw, r)) (r' :: q)). split; [reflexivity|].
        apply (IH _ _ Hds). exists (r' :: q). split; [reflexivity|]. split; [congruence | exact Hc].
  Qed.

  (** acyclicity bounds chain length *)
  Lemma chain_long_cycle e p b :
    chain e p b -> List.length rels < List.length p -> reaches_cycle src dst rels e.
  Proof.
    intros Hc Hlen.
    (* two positions of p carry the same relationship *)
    assert (~ NoDup p) as Hnd.
    { intros Hnd. assert (incl p rels) as Hincl.
      { clear -Hc. induction Hc; intros x Hx; [destruct Hx|]. destruct Hx as [->|Hx]; auto. }
      pose proof (NoDup_incl_length Hnd Hincl). lia. }
    assert (exists p1 r p2 p3, p = p1 ++ r :: p2 ++ r :: p3) as (p1 & r & p2 & p3 & ->).
    { clear -Hnd. induction p as [|r p IH]; [exfalso; apply Hnd; constructor|].
      destruct (in_dec (fun a b => Bool.reflect_dec _ _ (rel_eqb_spec a b)) r p) as [Hin|Hni].
      - apply in_split in Hin as (q1 & q2 & ->). exists [], r, q1, q2. reflexivity.
      - destruct IH as (p1 & r' & p2 & p3 & ->).
        { intros H; apply Hnd; constructor; assumption. }
        exists (r :: p1), r', p2, p3. reflexivity. }
    apply chain_app in Hc as (c & H1 & H2). apply chain_cons_inv in H2 as (-> & Hr & H2).
    apply chain_app in H2 as (c & H2 & H3). apply chain_cons_inv in H3 as (-> & _ & _).
    exists (src r), p1, (r :: p2). split; [exact H1|]. split; [congruence|].
    constructor; assumption.
  Qed.

  Lemma cycle_chains e : reaches_cycle src dst rels e -> forall n, exists p b, chain e p b /\ List.length p = n.
  Proof.
    intros (c & p & q & Hp & Hq & Hc) n.
    assert (exists s, chain c s c /\ n <= List.length s) as (s & Hs & Hn).
    { induction n as [|n (s & Hs & Hn)].
      - exists []. split; [constructor | simpl; lia].
      - exists (q ++ s). split; [apply chain_app; eauto|]. rewrite app_length.
        destruct q; [congruence | simpl; lia]. }
    assert (chain e (p ++ s) c) as Hps by (apply chain_app; eauto).
    rewrite <- (firstn_skipn n (p ++ s)) in Hps. apply chain_app in Hps as (b & H1 & _).
    exists (firstn n (p ++ s)), b. split; [exact H1|]. apply firstn_length_le. rewrite app_length; lia.
  Qed.

  Lemma related_acyclic e :
    ~ reaches_cycle src dst rels e -> exists l, related (S (List.length rels)) rels e true = Ok l.
  Proof.
    intros Hno. apply related_ok_iff. intros (p & b & Hc & Hlen). apply Hno.
    eapply chain_long_cycle; [exact Hc | lia].
  Qed.

  Lemma related_cyclic e fuel :
    reaches_cycle src dst rels e -> related fuel rels e true = Err OutOfFuel.
  Proof.
    intros Hcyc. destruct (related fuel rels e true) as [l|x] eqn:E.
    - exfalso. assert (exists l, related fuel rels e true = Ok l) as H by eauto.
      apply related_ok_iff in H. apply H. destruct (cycle_chains e Hcyc fuel) as (p & b & Hc & Hl). eauto.
    - f_equal. eapply related_fuel_err; exact E.
  Qed.

  Lemma related_NoDup fuel e l : NoDup rels -> related fuel rels e true = Ok l -> NoDup l.
  Proof.
    intros Hnd. revert e l; induction fuel as [|fuel IH]; intros e l H; [discriminate|].
    cbn [related_entities] in H. apply bind_Ok in H as (subs & Hs & H). injection H as <-.
    assert (NoDup (filter (fun r => String.eqb (src r) e) rels)) as Hndf by (apply NoDup_filter'; exact Hnd).
    apply mapM_Ok_Forall2 in Hs. revert Hndf. induction Hs as [|r s l subs Hr Hl IHl]; intros Hndf; simpl; [constructor|].
    inversion Hndf as [|? ? Hni Hndf']; subst. specialize (IHl Hndf').
    apply bind_Ok in Hr as (ds & Hds & He). injection He as <-. simpl.
    assert (forall x, In x (List.concat subs) -> exists r' q, In r' l /\ snd x = (fw, r') :: q) as Hhead.
    { clear -Hl. induction Hl as [|r' s l subs Hr Hl IHl]; simpl; [intros x []|].
      intros x Hx. apply in_app_iff in Hx as [Hx|Hx].
      - apply bind_Ok in Hr as (ds & _ & He). injection He as <-. destruct Hx as [<-|Hx]; simpl; [eauto|].
        apply in_map_iff in Hx as (ep & <- & _). simpl. eauto.
      - destruct (IHl x Hx) as (r2 & q & Hin & Hq). eauto. }
    assert (forall x, In x ((dst r, [(fw, r)]) :: map (fun ep : string * list edge => (fst ep, (fw, r) :: snd ep)) ds) ->
              exists q, snd x = (fw, r) :: q) as Hhead'.
    { intros x [<-|Hx]; simpl; [eauto|]. apply in_map_iff in Hx as (ep & <- & _). simpl. eauto. }
    assert (NoDup ((dst r, [(fw, r)]) :: map (fun ep : string * list edge => (fst ep, (fw, r) :: snd ep)) ds)) as Hnd1.
    { constructor.
      - intros Hin. apply in_map_iff in Hin as ([b p] & He & Hin). simpl in He. injection He as _ ->.
        apply (related_In _ _ _ Hds) in Hin as (q & Hq & Hq0 & _). destruct q; [congruence | discriminate].
      - apply FinFun.Injective_map_NoDup; [|eapply IH; exact Hds].
        intros [a p] [b q] He. simpl in He. congruence. }
    change (NoDup (((dst r, [(fw, r)]) :: map (fun ep : string * list edge => (fst ep, (fw, r) :: snd ep)) ds) ++ List.concat subs)).
    revert Hnd1 Hhead'. generalize ((dst r, [(fw, r)]) :: map (fun ep : string * list edge => (fst ep, (fw, r) :: snd ep)) ds).
    intros s Hs Hh. induction Hs as [|x s Hx Hs IHs]; simpl; [exact IHl|].
    constructor.
    - rewrite in_app_iff. intros [Hin|Hin]; [contradiction|].
      destruct (Hhead x Hin) as (r' & q & Hr' & Hq). destruct (Hh x) as (q' & Hq'); [left; reflexivity|].
      rewrite Hq in Hq'. injection Hq' as -> _. contradiction.
    - apply IHs. intros y Hy; apply Hh; right; exact Hy.
  Qed.
End Deep.

(** two entities referring to each other *)
Definition ex_cycle : list relationship :=
  [mkRel "a" "id" "b" "a_id"; mkRel "b" "id" "a" "b_id"]%string.
Lemma ex_cycle_reaches : reaches_cycle r_pe r_ce ex_cycle "a"%string.
Proof.
  exists "a"%string, [], ex_cycle. split; [constructor|]. split; [discriminate|].
  apply chain_cons_inv. split; [reflexivity|]. split; [left; reflexivity|].
  apply chain_cons_inv. split; [reflexivity|]. split; [right; left; reflexivity|]. constructor.
Qed.
