(** Ordinary requests are valid. *)
From Verif Require Import Base BaseFacts M_Schema S_Schema M_Trie M_Table M_Query S_Query S_View M_Feature M_FeatureSet M_Calc S_Calc S_Group
  S_Plan S_Sem S_Approx S_Value S_Total M_Names S_Names S_Ordinary L_Query L_View L_Plan L_Group L_Value1 P_Select L_FeatureSet L_Names P_Value P_Names.
Local Open Scope string_scope.

Section Ordinary.
  Variables (es : entityset) (style_of : prim -> style -> Prop) (delta : tdelta -> Prop) (eid : string) (fs : list feat).
  Notation rels := (es_rels es).
  Hypothesis Hes : good_es es.
  Hypothesis Hos : ordinary_schema es.
  Hypothesis Hof : ordinary_features es style_of delta eid fs.
  Notation nm := (fname rels).
  Notation ord := (ordinary rels style_of (index_of es) delta).
  Notation cond := (condition rels style_of (index_of es) delta).
  Let Hst := of_styled _ _ _ _ _ Hof.
  Let Hps := os_plain _ Hos.
  Let Hdel := of_deltas _ _ _ _ _ Hof.

  Lemma ord_cond e f : ord e f -> cond e f.
  Proof. left. assumption. Qed.
  Lemma cond_entity e f : cond e f -> fentity f = e.
  Proof.
    intros [H|H]; [eapply ord_entity; exact H|]. destruct f as [| | |p [|b [|]] [|]| |]; try contradiction. cbn [fentity]. eapply ord_entity. exact (proj2 H).
  Qed.
  Lemma cond_names e f g : cond e f -> cond e g -> nm f = nm g -> f = g.
  Proof.
    intros Hf Hg E. apply (condition_decode rels style_of (index_of es) delta Hst (fsize f) (decode rels style_of (index_of es) delta Hst Hps Hdel (fsize f)) e f g ")" ")" (le_n _) Hf Hg); [right; reflexivity | right; reflexivity | rewrite E; reflexivity].
  Qed.

  Lemma rel_words r : In r rels -> word (r_pe r) /\ word (r_ce r).
  Proof. intros Hr. destruct (ps_words _ Hps r Hr) as (H1 & H2 & _). auto. Qed.
  Lemma get_words e x : es_get es e = Ok x -> word e /\ forall c, In c (cols (e_df x)) -> word c.
  Proof. intros H. destruct (es_get_id es e x H) as [<- Hin]. apply (os_words _ Hos x Hin). Qed.

  Lemma chain_child e path : path <> [] -> backward_chain rels e path (last_child e path) -> exists r, In r rels /\ r_ce r = last_child e path.
  Proof. apply chain_last. Qed.
  Lemma chain_start e path c : path <> [] -> backward_chain rels e path c -> exists r path', path = r :: path' /\ r_pe r = e.
  Proof. intros Hne H. inversion H; subst; [congruence|]. eauto. Qed.

  Lemma index_word r : In r rels -> word (index_of es (r_ce r)).
  Proof.
    intros Hr. destruct (proj2 Hes r Hr) as [_ (x & Hx)]. unfold index_of. rewrite Hx. apply (proj2 (get_words _ _ Hx)).
    destruct (es_get_id es _ x Hx) as [_ Hin]. destruct (proj1 Hes x Hin) as [Hwf _]. apply (proj1 (proj2 Hwf)).
  Qed.

  (** needed features are ordinary, or conditions *)
  Lemma cond_dep e f d : word e -> cond e f -> In d (fdeps f) -> exists e', word e' /\ cond e' d.
  Proof.
    intros We [Hf|Hf] Hd.
    - destruct f as [e' v n|r b n|p bs path u wh prev n|p bs n|p bs g n|b k n]; destruct n; cbn [ordinary] in Hf; try contradiction.
      + destruct Hf as (Hr & _ & Hb). destruct Hd as [<-|[]]. exists (r_pe r). split; [apply rel_words; exact Hr | left; exact Hb].
      + destruct Hf as (Hne & Hch & _ & Hbs & Hw & _). destruct (chain_child _ _ Hne Hch) as (r & Hr & Er). set (c := last_child e path) in *.
        exists c. split; [rewrite <- Er; apply rel_words; exact Hr|]. unfold fdeps in Hd. cbn [fbases fwhere] in Hd. apply in_app_iff in Hd as [Hd|Hd].
        * destruct Hbs as [(_ & _ & Hbs)|(_ & ->)].
          -- apply fold_ord in Hbs. rewrite Forall_forall in Hbs. left. apply Hbs. exact Hd.
          -- destruct Hd as [<-|[]]. left. cbn [ordinary]. split; [reflexivity|]. rewrite <- Er. apply index_word. exact Hr.
        * destruct wh as [w|]; [|destruct Hd]. destruct Hd as [<-|[]]. exact Hw.
      + destruct Hf as (_ & _ & Hbs). apply fold_ord in Hbs. rewrite Forall_forall in Hbs. exists e. split; [exact We|]. left. apply Hbs.
        unfold fdeps in Hd. cbn [fbases fwhere] in Hd. rewrite app_nil_r in Hd. exact Hd.
      + destruct Hf as (_ & _ & Hbs & Hg). apply fold_ord in Hbs. rewrite Forall_forall in Hbs. exists e. split; [exact We|]. left.
        unfold fdeps in Hd. cbn [fbases fwhere] in Hd. rewrite app_nil_r in Hd. apply in_app_iff in Hd as [Hd|[<-|[]]]; [apply Hbs; exact Hd | exact Hg].
    - destruct f as [| | |p [|b [|]] [|]| |]; try contradiction. destruct Hd as [<-|[]]. exists e. split; [exact We | left; apply Hf].
  Qed.
  Lemma needed_cond f : needed fs f -> exists e, word e /\ cond e f.
  Proof.
    intros (f0 & Hf0 & Hr). assert (exists e, word e /\ cond e f0) as H0.
    { exists eid. destruct (of_target _ _ _ _ _ Hof) as (x & Hx). split; [exact (proj1 (get_words _ _ Hx)) | left; apply (of_ordinary _ _ _ _ _ Hof); exact Hf0]. }
    clear Hf0. induction Hr as [f|f d g Hd Hr IH]; [exact H0|]. apply IH. destruct H0 as (e & We & He). eapply cond_dep; eassumption.
  Qed.
  Lemma needed_at f : needed fs f -> word (fentity f) /\ cond (fentity f) f.
  Proof. intros H. destruct (needed_cond f H) as (e & We & He). rewrite (cond_entity _ _ He). auto. Qed.

  Lemma needed_nout f : needed fs f -> fnout f = 1.
  Proof.
    assert (forall n f, fsize f <= n -> needed fs f -> fnout f = 1) as H; [|intros Hf; exact (H _ f (le_n _) Hf)].
    clear f. induction n as [|n IH]; intros f Hn Hf; [destruct f; cbn [fsize] in Hn; lia|]. pose proof (of_primitives _ _ _ _ _ Hof f Hf) as Hp. destruct (needed_at f Hf) as [_ Hc].
    destruct f as [e' v m|r b m|p bs path u wh prev m|p bs m|p bs g m|b k m]; cbn [fnout good_primitive fsize] in *.
    - reflexivity.
    - apply IH; [lia|]. eapply needed_dep; [exact Hf | left; reflexivity].
    - apply Hp.
    - apply Hp.
    - apply Hp.
    - exfalso. destruct Hc as [Hc|Hc]; destruct m; cbn in Hc; contradiction.
  Qed.
  Lemma needed_names f : needed fs f -> fnames rels f = [nm f].
  Proof. intros H. apply single_names, needed_nout, H. Qed.
  Lemma needed_not_slice f : needed fs f -> ~ is_slice f.
  Proof. intros H. destruct (needed_at f H) as [_ Hc]. destruct f as [| | | | |b k m]; cbn [is_slice]; try tauto. destruct Hc as [Hc|Hc]; destruct m; cbn in Hc; contradiction. Qed.

  Lemma needed_same f g : needed fs f -> needed fs g -> fentity f = fentity g -> nm f = nm g -> f = g.
  Proof.
    intros Hf Hg Ee En. destruct (needed_at f Hf) as [_ Cf], (needed_at g Hg) as [_ Cg]. rewrite <- Ee in Cg. eapply cond_names; eassumption.
  Qed.
  Lemma needed_distinct : distinct_names rels fs.
  Proof.
    intros f g Hf Hg E. destruct (needed_at f Hf) as [W1 _], (needed_at g Hg) as [W2 _]. unfold funique in E. apply needed_same; [exact Hf | exact Hg | |].
    all: assert (forall e s, e ++ ": " ++ s = (e ++ ":") ++ " " ++ s) as Ha by (intros e s; rewrite sapp_assoc; reflexivity); rewrite !Ha in E.
    all: assert (forall e, word e -> free_of special (e ++ ":") = true) as Hfree
      by (intros e We; pose proof (word_free e We) as Hw; clear -Hw; induction e as [|c e IH]; [reflexivity|]; cbn [append free_of] in *; apply andb_prop in Hw as [-> Hw]; exact (IH Hw)).
    all: apply (split_at special) in E as [E1 E2]; [|apply Hfree; exact W1 | apply Hfree; exact W2 | reflexivity | reflexivity].
    - clear -E1. revert E1. generalize (fentity f) (fentity g). intros e1. induction e1 as [|c e1 IH]; intros [|d e2] E; cbn [append] in E; [reflexivity | | |injection E as -> E; rewrite (IH e2 E); reflexivity]; injection E as _ E; [destruct e2 | destruct e1]; discriminate E.
    - cbn [append] in E2. injection E2 as E2. exact E2.
  Qed.

  (** a name that is a word is the name of a variable *)
  Lemma word_ident e f : cond e f -> word (nm f) -> is_ident f.
  Proof.
    intros [Hf|Hf] Hw.
    - destruct (shape_head rels style_of (index_of es) delta Hst Hps e f Hf) as (a & t & E & Wa & Ht).
      assert (forall l, forallb special l = true -> is_char l t -> False) as Hx.
      { intros l Hl Hc. destruct t as [|c t]; [destruct Hc|]. cbn [is_char] in Hc. rewrite forallb_forall in Hl. specialize (Hl c Hc).
        pose proof (word_free _ Hw) as Hfr. rewrite E in Hfr. clear -Hfr Hl. induction a as [|x a IH]; cbn [append free_of] in Hfr; [rewrite Hl in Hfr; discriminate|]. apply andb_prop in Hfr as [_ Hfr]. exact (IH Hfr). }
      destruct f; cbn [shape is_ident] in *; try exact I; exfalso; [apply (Hx ["."; "["]%char eq_refl Ht) | | | |]; apply (Hx ["("]%char eq_refl Ht).
    - destruct f as [| | |p [|b [|]] [|]| |]; try contradiction. destruct Hf as ((op & v & Hs) & _). exfalso.
      pose proof (word_free _ Hw) as Hfr. rewrite (scalar_text rels style_of Hst p b op v Hs) in Hfr. clear -Hfr. induction (nm b) as [|x a IH]; cbn [append free_of] in Hfr; [discriminate|]. apply andb_prop in Hfr as [_ Hfr]. exact (IH Hfr).
  Qed.

  (** the direct feature that a link column copies *)
  Lemma link_feat r c : link_column rels r c -> exists b, ord (r_ce r) (FDirect r b None) /\ nm (FDirect r b None) = link_name rels r c /\ fentity b = r_pe r /\ ~ is_slice b /\ link_copy rels b.
  Proof.
    induction 1 as [r0 r Hr0 Hr E|r' r c Hr E H (b & Hb1 & Hb2 & Hb3 & Hb4 & Hb5)].
    - exists (FIdent (r_pe r) (r_cv r0) None). cbn [ordinary]. split; [split; [exact Hr|]; split; [reflexivity|]; split; [reflexivity | apply (ps_words _ Hps r0 Hr0)]|].
      split; [rewrite nm_direct, nm_ident; reflexivity|]. split; [reflexivity|]. split; [intros []|]. cbn [link_copy]. exists r0. auto.
    - exists (FDirect r' b None). cbn [ordinary]. split; [split; [exact Hr|]; split; [reflexivity|]; rewrite <- E; exact Hb1|].
      split; [rewrite nm_direct, Hb2; reflexivity|]. split; [exact E|]. split; [intros []|]. exact Hb5.
  Qed.

  Lemma ordinary_wt f : needed fs f -> wt rels f.
  Proof.
    assert (forall n f, fsize f <= n -> needed fs f -> wt rels f) as H; [|intros Hf; exact (H _ f (le_n _) Hf)].
    clear f. induction n as [|n IH]; intros f Hn Hf; [destruct f; cbn [fsize] in Hn; lia|].
    pose proof (fun d Hd => needed_dep fs f d Hf Hd) as Hdeps. destruct (needed_at f Hf) as [_ Hc].
    assert (forall d, In d (fdeps f) -> wt rels d /\ fnout d = 1) as Hd.
    { intros d Hd. split; [|apply needed_nout, Hdeps, Hd]. apply IH; [|apply Hdeps, Hd]. pose proof (fsize_dep f d Hd). lia. }
    destruct Hc as [Hc|Hc].
    - destruct f as [e' v m|r b m|p bs path u wh prev m|p bs m|p bs g m|b k m]; destruct m; cbn [ordinary] in Hc; try contradiction.
      + constructor.
      + destruct Hc as (Hr & _ & Hb). constructor; [exact Hr | apply Hd; left; reflexivity | eapply ord_entity; exact Hb].
      + destruct Hc as (Hne & Hch & _ & Hbs & Hw & _). destruct (chain_start _ _ _ Hne Hch) as (r & path' & Ep & Er).
        remember (last_child (fentity (FAgg p bs path u wh prev None)) path) as c eqn:Ec0. clear Ec0.
        assert (bs <> [] /\ forall b, In b bs -> fentity b = c) as [Hbne Hbe].
        { destruct Hbs as [(_ & Hn0 & Hbs)|(_ & ->)]; [split; [exact Hn0|]; apply fold_ord in Hbs; rewrite Forall_forall in Hbs; intros b Hb; eapply ord_entity; apply Hbs; exact Hb | split; [discriminate | intros b [<-|[]]; reflexivity]]. }
        apply wt_agg with c; [exact Hbne | exact Hne | subst path; rewrite Er; exact Hch | | | |].
        * intros b Hb. apply Hd. unfold fdeps. apply in_app_iff. left. exact Hb.
        * intros b Hb. split; [apply Hbe; exact Hb | apply Hd; unfold fdeps; apply in_app_iff; left; exact Hb].
        * intros w ->. apply Hd. unfold fdeps. apply in_app_iff. right. left. reflexivity.
        * intros w ->. split; [apply cond_entity; exact Hw | apply Hd; unfold fdeps; apply in_app_iff; right; left; reflexivity].
      + destruct Hc as (_ & Hbne & Hbs). apply fold_ord in Hbs. rewrite Forall_forall in Hbs. eapply wt_trans; [exact Hbne | |].
        * intros b Hb. apply Hd. unfold fdeps. apply in_app_iff. left. exact Hb.
        * intros b Hb. split; [eapply ord_entity; apply Hbs; exact Hb | apply Hd; unfold fdeps; apply in_app_iff; left; exact Hb].
      + destruct Hc as (_ & Hbne & Hbs & Hg). apply fold_ord in Hbs. rewrite Forall_forall in Hbs.
        assert (forall b, In b (bs ++ [g]) -> wt rels b /\ fnout b = 1) as Hd' by (intros b Hb; apply Hd; unfold fdeps; cbn [fbases]; apply in_app_iff; left; exact Hb).
        constructor; [exact Hbne | apply Hd'; apply in_app_iff; right; left; reflexivity | apply Hd'; apply in_app_iff; right; left; reflexivity | |].
        * intros b Hb. apply Hd'. apply in_app_iff. auto.
        * intros b Hb. split; [rewrite (ord_entity _ _ _ _ _ _ (Hbs b Hb)), (ord_entity _ _ _ _ _ _ Hg); reflexivity | apply Hd'; apply in_app_iff; auto].
    - destruct f as [| | |p [|b [|]] [|]| |]; try contradiction. apply wt_trans with (fentity b); [discriminate | |].
      + intros b' [<-|[]]. apply Hd. left. reflexivity.
      + intros b' [<-|[]]. split; [reflexivity | apply Hd; left; reflexivity].
  Qed.

  Lemma ordinary_clear : clear_names es fs.
  Proof.
    constructor.
    - exact needed_distinct.
    - intros f g i j n [Hf _] [Hg _] E Hi Hj. rewrite (needed_names f Hf) in Hi. rewrite (needed_names g Hg) in Hj.
      destruct i as [|[|i]]; try discriminate Hi. destruct j as [|[|j]]; try discriminate Hj. cbn [nth_error] in *. split; [|reflexivity]. apply needed_same; [exact Hf | exact Hg | exact E | congruence].
    - intros f e n [Hf _] He Hn Hc. rewrite (needed_names f Hf) in Hn. destruct Hn as [<-|[]]. destruct (needed_at f Hf) as [_ Cf]. eapply word_ident; [exact Cf|]. apply (get_words _ _ He). exact Hc.
    - intros e v m Hf. destruct (needed_at _ Hf) as [_ Cf]. destruct m; [destruct Cf as [[]|[]]|]. apply nm_ident.
    - intros b n m Hf. exfalso. apply (needed_not_slice _ Hf). exact I.
    - intros r c Hl. destruct (link_feat r c Hl) as (b & Hb1 & Hb2 & Hb3 & Hb4 & Hb5). split.
      + intros e He Hin. rewrite <- Hb2 in Hin. apply (word_ident (r_ce r) (FDirect r b None)); [left; exact Hb1|]. apply (get_words _ _ He). exact Hin.
      + intros f [Hf _] E Hin. rewrite (needed_names f Hf) in Hin. destruct Hin as [Hin|[]]. destruct (needed_at f Hf) as [_ Cf]. rewrite E in Cf.
        assert (f = FDirect r b None) as -> by (eapply cond_names; [exact Cf | left; exact Hb1 | congruence]).
        split; [exists b; auto|]. destruct (of_full _ _ _ _ _ Hof) as [Hfu|Hfu]; [intros g [Hg _]; apply Hfu; exact Hg|]. exfalso. exact (Hfu r b None Hf Hb5).
  Qed.

  (** beyond its first step a path goes through relationships below a grandparent *)
  Lemma tail_links e path c : backward_chain rels e path c -> forall r, In r (tl path) -> parent_name rels r = r_pe r.
  Proof.
    intros H. destruct H as [|r0 path b Hr0 H]; [intros r []|]. cbn [tl]. revert r0 Hr0 H. induction path as [|r1 path IH]; intros r0 Hr0 H r Hr; [destruct Hr|].
    inversion H as [|r' p' b' Hr1 H' E1]; subst. destruct Hr as [<-|Hr]; [apply (os_links _ Hos r0 r1); [exact Hr0 | exact Hr1 | congruence] | apply (IH r1 Hr1 H' r Hr)].
  Qed.

  Lemma agg_path_text e p bs path u wh prev : ord e (FAgg p bs path u wh prev None) -> fpath_name rels (FAgg p bs path u wh prev None) = path_text rels (last_child e path) path u.
  Proof.
    intros (_ & _ & _ & S1 & _). unfold fpath_name, path_text. destruct u; [|unfold edges_name; cbn [fpath]; rewrite map_map; reflexivity].
    destruct S1 as [(_ & Nb & B)|[_ ->]]; [|reflexivity]. destruct bs as [|b bs]; [congruence|]. apply (ord_entity rels style_of (index_of es) delta _ b). apply B.
  Qed.

  Lemma ordinary_agg f p bs path u wh prev m : needed fs f -> f = FAgg p bs path u wh prev m -> m = None /\ ord (fentity f) f.
  Proof. intros Hf ->. destruct (needed_at _ Hf) as [_ [H|H]]; [|contradiction]. destruct m; [destruct H|]. auto. Qed.

  Lemma ordinary_plain : plain_features rels fs.
  Proof.
    destruct (of_windows _ _ _ _ _ Hof) as [Hw1 Hw2].
    assert (forall f d, needed fs f -> fprev f = Some d -> delta d) as Hdelta.
    { intros f d Hf Ed. destruct f as [| |p bs path u wh prev m| | |]; try discriminate Ed. destruct (ordinary_agg _ _ _ _ _ _ _ _ Hf eq_refl) as [-> (_ & _ & _ & _ & _ & Hd)]. cbn [fprev] in Ed. subst prev. exact Hd. }
    constructor.
    - intros f g [Hf _] [Hg _] E Ec Ep. destruct f as [e1 v1 m1|r1 b1 m1|p1 bs1 path1 u1 w1 d1 m1|p1 bs1 m1|p1 bs1 g1 m1|b1 k1 m1], g as [e2 v2 m2|r2 b2 m2|p2 bs2 path2 u2 w2 d2 m2|p2 bs2 m2|p2 bs2 g2 m2|b2 k2 m2]; try discriminate Ec; try reflexivity.
      + destruct (needed_at _ Hf) as [_ C1], (needed_at _ Hg) as [_ C2]. cbn [fentity] in *. destruct m1; [destruct C1 as [[]|[]]|]. destruct m2; [destruct C2 as [[]|[]]|].
        destruct C1 as [C1|[]], C2 as [C2|[]]. destruct C1 as (R1 & _), C2 as (R2 & _). cbn [fpath fpath_name edges_name map fst snd String.concat] in *.
        destruct (parent_decode rels Hps r1 r2 "." "." R1 R2 E) as [-> _]; [left; reflexivity | left; reflexivity | rewrite Ep; reflexivity | reflexivity].
      + destruct (ordinary_agg _ _ _ _ _ _ _ _ Hf eq_refl) as [-> O1], (ordinary_agg _ _ _ _ _ _ _ _ Hg eq_refl) as [-> O2]. rewrite <- E in O2. set (e := fentity (FAgg p1 bs1 path1 u1 w1 d1 None)) in *.
        rewrite (agg_path_text e _ _ _ _ _ _ O1), (agg_path_text e _ _ _ _ _ _ O2) in Ep. destruct O1 as (N1 & C1 & U1 & _), O2 as (N2 & C2 & U2 & _).
        destruct (path_decode rels style_of (index_of es) delta Hst Hps false e path1 path2 u1 u2 _ _ ")" ")" N1 N2 C1 C2 U1 U2) as (-> & _); [cbn; auto | cbn; auto | rewrite Ep; reflexivity | reflexivity].
      + exfalso. apply (needed_not_slice _ Hf). exact I.
    - intros f [Hf _]. unfold plain_window. destruct (fprev f) as [d|] eqn:Ed; [|exact I]. apply (Hw1 d (Hdelta f d Hf Ed)).
    - intros f g a b [Hf _] [Hg _] Ea Eb. apply Hw2; [exact (Hdelta f a Hf Ea) | exact (Hdelta g b Hg Eb)].
    - intros f d n [Hf _] Ed. apply (Hw1 d (Hdelta f d Hf Ed)).
    - intros p bs path u wh prev m [Hf _]. destruct (ordinary_agg _ _ _ _ _ _ _ _ Hf eq_refl) as [-> (_ & Hch & _)]. eapply tail_links. exact Hch.
    - intros p bs path u w prev m [Hf _]. exact (of_where _ _ _ _ _ Hof p bs path u w prev m Hf).
    - intros r b m b' m' n [Hf _] [Hg _] Hb Hb'.
      assert (needed fs b) as Nb by (eapply needed_dep; [exact Hf | left; reflexivity]). assert (needed fs b') as Nb' by (eapply needed_dep; [exact Hg | left; reflexivity]).
      rewrite (needed_names b Nb) in Hb. rewrite (needed_names b' Nb') in Hb'. destruct Hb as [Hb|[]], Hb' as [Hb'|[]].
      destruct (needed_at _ Hf) as [_ C1], (needed_at _ Hg) as [_ C2]. destruct m; [destruct C1 as [[]|[]]|]. destruct m'; [destruct C2 as [[]|[]]|].
      destruct C1 as [C1|[]], C2 as [C2|[]]. destruct C1 as (_ & _ & C1), C2 as (_ & _ & C2).
      rewrite (cond_names (r_pe r) b b' (or_introl C1) (or_introl C2)); [reflexivity | congruence].
    - intros f [Hf _]. pose proof (of_primitives _ _ _ _ _ Hof f Hf) as Hp. destruct f as [| |p bs path u wh prev m|p bs m|p bs g m|]; try exact I; cbn [good_primitive] in Hp.
      + destruct Hp as [-> Hp]. exact Hp.
      + destruct Hp as (-> & Hp & _). exact Hp.
      + destruct Hp as (-> & Hp & _). exact Hp.
    - intros p bs m [Hf _]. apply (of_primitives _ _ _ _ _ Hof _ Hf).
    - intros p bs g m [Hf _]. apply (of_primitives _ _ _ _ _ Hof _ Hf).
  Qed.

  Lemma ordinary_valid idvars ordr tw : index_present es -> good_idvars es idvars -> win_time tw -> (forall l, Permutation (ordr l) l) -> valid_request es idvars ordr tw fs eid.
  Proof.
    intros H1 H2 H3 H4. constructor; try assumption; [|exact ordinary_clear | exact ordinary_plain].
    intros f Hf. assert (needed fs f) as N by (apply needed_self; exact Hf). split; [apply ordinary_wt; exact N|]. split; [apply needed_not_slice; exact N|].
    eapply ord_entity. apply (of_ordinary _ _ _ _ _ Hof f Hf).
  Qed.
  (** ** the calculation does not fail *)
  Lemma at_row_in idx rs r o : In r rs -> List.length o = List.length rs -> In (at_row idx rs (cell idx r) o) o.
  Proof.
    intros Hr Hl. unfold at_row. destruct (find _ _) as [[k v]|] eqn:E; cbn [snd].
    - apply find_some in E as [E _]. apply in_combine_r in E. exact E.
    - exfalso. revert o Hl E. induction rs as [|r0 rs IH]; intros o Hl E; [destruct Hr|]. destruct o as [|x o]; [discriminate|]. cbn [map combine find fst] in E.
      destruct (val_eqb_spec (cell idx r0) (cell idx r)) as [Ev|Ev]; [discriminate|]. destruct Hr as [->|Hr]; [congruence|]. apply (IH Hr o); [injection Hl; auto | exact E].
  Qed.

  Lemma index_pv r : In r rels -> word (r_pv r).
  Proof.
    intros Hr. destruct (proj2 Hes r Hr) as [(x & Hx) _]. destruct (es_get_id es _ x Hx) as [Ei Hin]. apply (proj2 (get_words _ _ Hx)). destruct (proj1 Hes x Hin) as (Hwf & _ & _ & _ & _ & _ & Hpv). rewrite (Hpv r Hr (eq_sym Ei)). apply (proj1 (proj2 Hwf)).
  Qed.
  Lemma ordinary_runnable T tw incl : answerable es T tw incl fs -> runnable es T tw incl fs.
  Proof.
    intros Ha. constructor.
    - intros e v n H. eapply an_variables; [exact Ha | exact H].
    - intros f [Hf _]. pose proof (of_primitives _ _ _ _ _ Hof f Hf) as Hp. destruct f; try exact I; cbn [good_primitive] in Hp; intros t cs n o H1 H2 H3; apply (proj1 (proj2 (proj2 Hp)) t cs n o H1 H2 H3).
    - intros p bs path u w prev n [Hf _] c Hc. pose proof (an_where _ _ _ _ _ Ha _ _ _ _ _ _ _ Hf) as Hw.
      assert (needed fs w) as Nw. { apply (needed_dep fs _ w Hf). unfold fdeps. cbn [fbases fwhere]. apply in_or_app. right. left. reflexivity. }
      destruct w as [| | |q ws m| |]; try contradiction. pose proof (of_primitives _ _ _ _ _ Hof _ Nw) as (_ & Hl & Hn & _). cbn [sem].
      set (rs := rows_at es T tw incl (fentity (FTrans q ws m))) in *. set (idx := index_of es (fentity (FTrans q ws m))).
      set (cs := map (fun b => map (fun r' => hd VNull (sem es T tw incl b r')) rs) ws).
      assert (List.length cs = List.length ws) as L by apply map_length.
      assert (forall x, In x cs -> List.length x = List.length rs) as Lc by (intros x Hx; unfold cs in Hx; apply in_map_iff in Hx as (b & <- & _); apply map_length).
      specialize (Hl (time_arg T q) cs L). specialize (Hw (time_arg T q) cs). specialize (Hn (time_arg T q) cs (List.length rs)).
      destruct (p_trans q (time_arg T q) cs) as [|o [|]]; try discriminate Hl. cbn [map hd].
      apply (Hw o); [exact L | left; reflexivity|]. apply at_row_in; [exact Hc|]. apply Hn; [exact L | exact Lc | left; reflexivity].
    - intros p p' bs bs' path u u' wh prev n n' f g [Hf _] [Hg _] (_ & Sf & _) (_ & Sg & _) Cp Cp' Hh.
      assert (p = p') as <- by (eapply an_count; [exact Ha | exact Hf | exact Hg | exact Cp | exact Cp']).
      destruct bs as [|b [|]]; try discriminate Sf. destruct bs' as [|b' [|]]; try discriminate Sg. injection Hh as <-.
      destruct (ordinary_agg _ _ _ _ _ _ _ _ Hf eq_refl) as [-> Of]. destruct (ordinary_agg _ _ _ _ _ _ _ _ Hg eq_refl) as [-> Og].
      destruct Of as (_ & _ & U1 & _), Og as (_ & _ & U2 & _). unfold f, g. f_equal.
      assert (u = true <-> u' = true) as U by (rewrite U1; symmetry; exact U2). destruct u, u'; try reflexivity; [symmetry; apply U; reflexivity | apply U; reflexivity].
    - intros p bs path u wh prev n [Hf _]. eapply an_columns; [exact Ha | exact Hf].
    - intros r b n [Hf _] _. apply needed_nout. eapply needed_dep; [exact Hf|]. left. reflexivity.
    - intros r b n r' c [Hf _] E Hl Er Hn. destruct (needed_at _ Hf) as [_ Hc]. destruct Hc as [Hc|Hc]; [|contradiction]. destruct n; [destruct Hc|]. cbn [fentity] in Hc.
      destruct (link_feat r' c Hl) as (b' & Ob & En & _ & _ & Lb). rewrite Er in Ob.
      assert (FDirect r b None = FDirect r' b' None) as X by (apply (cond_names (r_ce r)); [left; exact Hc | left; exact Ob | congruence]).
      injection X as <- <-. destruct Hc as (Hr & _ & Hb). pose proof (index_pv r Hr) as Wpv.
      assert (word (nm b)) as Wb by (rewrite E; exact Wpv). pose proof (word_ident _ b (or_introl Hb) Wb) as Hi. destruct b as [e v m| | | | |]; try contradiction. destruct m; [destruct Hb|].
      destruct Hb as [-> _]. rewrite nm_ident in E. subst v. destruct Lb as (r2 & H2 & E2 & V2). eapply an_index; [exact Ha | exact Hf | exact H2 | exact E2 | exact V2].
    - intros f b n m [Hf _] _ Hd. exfalso. apply (needed_not_slice (FSlice b n m)); [eapply needed_dep; [exact Hf | exact Hd] | exact I].
  Qed.
End Ordinary.
