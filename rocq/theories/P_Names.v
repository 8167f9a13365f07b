(** C50: a feature's name identifies its definition. *)
From Verif Require Import Base BaseFacts M_Schema S_Schema M_Table M_Query M_Feature M_FeatureSet M_Calc M_Trie S_Calc S_Plan S_Group M_Names S_Names L_FeatureSet L_Names X_Demo P_Value.
Local Open Scope string_scope.

Section Main.
  Variables (rels : list relationship) (style_of : prim -> style -> Prop) (index_of : string -> string) (delta : tdelta -> Prop).
  Hypothesis Hst : styled style_of.
  Hypothesis Hps : plain_schema rels.
  Hypothesis Hdel : deltas delta.
  Let ord := ordinary rels style_of index_of delta.
  Notation nm := (fname rels).
  Notation fold_ord := (fold_ord rels style_of index_of delta).

  Definition shape (f : feat) : nat := match f with FIdent _ _ _ => 0 | FDirect _ _ _ => 1 | _ => 2 end.
  Lemma shape_head e f : ord e f -> exists a t, nm f = a ++ t /\ word a /\
    match shape f with 0 => t = "" | 1 => is_char ["."; "["]%char t | _ => is_char ["("]%char t end.
  Proof.
    intros Hf. destruct (head rels style_of index_of delta Hst Hps e f Hf) as (a & t & E & Ha & Ht). exists a, t. split; [exact E|]. split; [exact Ha|]. revert Hf E Ht.
    destruct f as [e' v nm|r b nm|p bs path u wh prev nm|p bs nm|p bs g nm|b n nm]; destruct nm; cbn [ord ordinary shape]; try tauto; intros Hf E Ht.
    - rewrite nm_ident in E. destruct Ht as [Ht|[Ht|(r & b & Ef & _)]]; [exact Ht | | discriminate Ef]. exfalso. destruct Hf as [_ Hv]. destruct t as [|c t]; [destruct Ht|]. destruct Ht as [<-|[]].
      pose proof (split_at special v a "" (String "(" t) (word_free _ Hv) (word_free _ Ha) I eq_refl) as Hs. rewrite sapp_nil in Hs. destruct (Hs E) as [_ Hx]. discriminate Hx.
    - destruct Ht as [Ht|[Ht|(r' & b' & [= <- <-] & _ & _ & _ & Ht)]]; [| |exact Ht]; exfalso.
      + subst t. rewrite nm_direct in E. destruct (parent_text rels r) as (t & Et & Htt). rewrite Et, !sapp_assoc in E. destruct Hf as (Hr & _). 
        destruct (split_at special (r_pe r) a (t ++ "." ++ nm b) "" (word_free _ (proj1 (ps_words _ Hps r Hr))) (word_free _ Ha)) as [_ Hx]; [apply (text_starts rels r); [reflexivity | exact Htt] | exact I | exact E|]. destruct Htt as [[-> _]|[-> _]]; discriminate Hx.
      + destruct t as [|c t]; [destruct Ht|]. destruct Ht as [<-|[]]. rewrite nm_direct in E. destruct (parent_text rels r) as (t' & Et & Htt). rewrite Et, !sapp_assoc in E. destruct Hf as (Hr & _).
        destruct (split_at special (r_pe r) a (t' ++ "." ++ nm b) (String "(" t) (word_free _ (proj1 (ps_words _ Hps r Hr))) (word_free _ Ha)) as [_ Hx]; [apply (text_starts rels r); [reflexivity | exact Htt] | reflexivity | exact E|]. destruct Htt as [[-> _]|[-> _]]; discriminate Hx.
    - destruct Ht as [Ht|[Ht|(r & b & Ef & _)]]; [exfalso | exact Ht | discriminate Ef]. subst t. rewrite sapp_nil in E. subst a. destruct Ha as (_ & Ha & _). revert Ha. rewrite nm_agg.
      destruct Hf as (_ & _ & _ & [((n & args & Hs) & _)|[Hs _]] & _).
      + destruct (st_agg _ Hst p n args Hs) as (Hg & _). rewrite Hg. unfold call_name_agg. clear. induction n as [|c n IH]; cbn [append free_of]; [discriminate|]. intros H. apply andb_prop in H as [_ H]. exact (IH H).
      + rewrite (st_count _ Hst p Hs). discriminate.
    - destruct Ht as [Ht|[Ht|(r & b & Ef & _)]]; [exfalso | exact Ht | discriminate Ef]. subst t. rewrite sapp_nil in E. subst a. destruct Ha as (_ & Ha & _). revert Ha. rewrite nm_trans.
      destruct Hf as ((n & args & Hs) & _). destruct (st_call _ Hst p n args Hs) as (Hg & _). rewrite Hg. unfold call_name. clear. induction n as [|c n IH]; cbn [append free_of]; [discriminate|]. intros H. apply andb_prop in H as [_ H]. exact (IH H).
    - destruct Ht as [Ht|[Ht|(r & b & Ef & _)]]; [exfalso | exact Ht | discriminate Ef]. subst t. rewrite sapp_nil in E. subst a. destruct Ha as (_ & Ha & _). revert Ha. rewrite nm_group.
      destruct Hf as ((n & args & Hs) & _). destruct (st_call _ Hst p n args Hs) as (Hg & _). rewrite Hg. unfold call_name. rewrite sapp_assoc. clear. induction n as [|c n IH]; cbn [append free_of]; [discriminate|]. intros H. apply andb_prop in H as [_ H]. exact (IH H).
  Qed.
  Lemma same_shape e f1 f2 k1 k2 : ord e f1 -> ord e f2 -> term k1 -> term k2 -> nm f1 ++ k1 = nm f2 ++ k2 -> shape f1 = shape f2.
  Proof.
    intros H1 H2 T1 T2 E. destruct (shape_head e f1 H1) as (a1 & t1 & E1 & W1 & S1), (shape_head e f2 H2) as (a2 & t2 & E2 & W2 & S2). rewrite E1, E2, !sapp_assoc in E.
    assert (forall f t k, term k -> match shape f with 0 => t = "" | 1 => is_char ["."; "["]%char t | _ => is_char ["("]%char t end -> starts special (t ++ k)) as Hs.
    { intros f t k Hk H. destruct (shape f) as [|[|]]; [subst t; apply term_starts; exact Hk | apply (is_char_starts ["."; "["]%char); [reflexivity | exact H] | apply (is_char_starts ["("]%char); [reflexivity | exact H]]. }
    apply (split_at special) in E as [_ E]; [|apply word_free; exact W1 | apply word_free; exact W2 | apply (Hs f1); assumption | apply (Hs f2); assumption].
    assert (forall f, shape f = 0 \/ shape f = 1 \/ shape f = 2) as Hsh by (intros []; cbn; auto).
    destruct (Hsh f1) as [Z1|[Z1|Z1]], (Hsh f2) as [Z2|[Z2|Z2]]; rewrite Z1, Z2 in *; try reflexivity; exfalso; subst;
      repeat match goal with H : is_char _ ?t |- _ => destruct t; [destruct H|]; cbn [is_char In] in H end; cbn [append] in E;
      repeat match goal with
      | H : _ = ?k, Hk : term ?k |- _ => subst k; cbn [term] in Hk
      | H : ?k = _, Hk : term ?k |- _ => subst k; cbn [term] in Hk
      end; try (injection E as E E'); intuition (subst; discriminate).
  Qed.

  Lemma decode n : forall f1 f2 e k1 k2, fsize f1 <= n -> ord e f1 -> ord e f2 -> term k1 -> term k2 -> nm f1 ++ k1 = nm f2 ++ k2 -> f1 = f2 /\ k1 = k2.
  Proof.
    induction n as [|n IH]; intros f1 f2 e k1 k2 Hn H1 H2 T1 T2 E; [destruct f1; cbn [fsize] in Hn; lia|].
    pose proof (same_shape e f1 f2 k1 k2 H1 H2 T1 T2 E) as Hsh.
    pose proof (fun e => bases_decode1 rels style_of index_of delta Hst Hps n IH e) as Hb.
    (* the text NAME(bases, args) *)
    assert (forall p1 p2 bs1 bs2 n1 n2 a1 a2 K1 K2, style_of p1 (Call n1 a1) -> style_of p2 (Call n2 a2) -> bs1 <> [] -> bs2 <> [] ->
      Forall (ord e) bs1 -> Forall (ord e) bs2 -> list_sum (map fsize bs1) <= n -> p_gen p1 (map nm bs1) ++ K1 = p_gen p2 (map nm bs2) ++ K2 -> p1 = p2 /\ bs1 = bs2 /\ K1 = K2) as Hcall.
    { intros p1 p2 bs1 bs2 n1 n2 a1 a2 K1 K2 S1 S2 N1 N2 B1 B2 Hs EE. destruct (st_call _ Hst _ _ _ S1) as (G1 & W1 & A1), (st_call _ Hst _ _ _ S2) as (G2 & W2 & A2).
      destruct bs1 as [|b1 bs1]; [congruence|]. destruct bs2 as [|b2 bs2]; [congruence|]. cbn [map] in EE. rewrite G1, G2, !call_commas in EE.
      apply (split_at special) in EE as [-> EE]; [|apply word_free; exact W1 | apply word_free; exact W2 | reflexivity | reflexivity].
      cbn [append] in EE. injection EE as EE. destruct (Hb e b1 bs1 b2 bs2 _ _ Hs B1 B2 (args_tail a1 K1 A1) (args_tail a2 K2 A2) EE) as [-> EE'].
      destruct (args_decode _ _ _ _ A1 A2 EE') as [-> ->]. rewrite (st_one _ Hst _ _ _ S1 S2). repeat split; reflexivity. }
    (* a call is not an aggregation *)
    assert (forall p bs K q bs2 path u wh prev k, (exists n args, style_of p (Call n args)) -> ord e (FAgg q bs2 path u wh prev None) ->
      p_gen p (map nm bs) ++ K = nm (FAgg q bs2 path u wh prev None) ++ k -> False) as Hkind.
    { intros p bs K q bs2 path u wh prev k (n1 & a1 & S1) Hq EE. destruct (st_call _ Hst _ _ _ S1) as (G1 & W1 & _). rewrite G1, nm_agg in EE. unfold call_name in EE. rewrite !sapp_assoc in EE.
      destruct Hq as (_ & _ & _ & [((n2 & a2 & S2) & _)|[S2 _]] & _).
      - destruct (st_agg _ Hst _ _ _ S2) as (G2 & W2 & _). rewrite G2 in EE. unfold call_name_agg in EE. rewrite !sapp_assoc in EE.
        apply (split_at special) in EE as [-> _]; [exact (st_kinds _ Hst _ _ _ _ _ S1 S2) | apply word_free; exact W1 | apply word_free; exact W2 | reflexivity | reflexivity].
      - rewrite (st_count _ Hst _ S2), count_commas in EE. apply (split_at special) in EE as [-> _]; [exact (st_kinds_count _ Hst _ _ S1) | apply word_free; exact W1 | reflexivity | reflexivity | reflexivity]. }
    destruct f1 as [e1 v1 m1|r1 b1 m1|p1 bs1 path1 u1 w1 d1 m1|p1 bs1 m1|p1 bs1 g1 m1|b1 i1 m1]; destruct m1; cbn [ord ordinary] in H1; try (destruct H1; fail);
      destruct f2 as [e2 v2 m2|r2 b2 m2|p2 bs2 path2 u2 w2 d2 m2|p2 bs2 m2|p2 bs2 g2 m2|b2 i2 m2]; destruct m2; cbn [ord ordinary] in H2; try (destruct H2; fail); cbn [shape] in Hsh; try discriminate Hsh; clear Hsh; cbn [fsize] in Hn.
    - rewrite !nm_ident in E. destruct H1 as [-> W1], H2 as [-> W2]. apply (split_at special) in E as [-> ->]; [split; reflexivity | apply word_free; exact W1 | apply word_free; exact W2 | apply term_starts; exact T1 | apply term_starts; exact T2].
    - rewrite !nm_direct, !sapp_assoc in E. destruct H1 as (R1 & C1 & B1), H2 as (R2 & C2 & B2).
      apply (parent_decode rels Hps) in E as [-> E]; [|exact R1 | exact R2 | congruence | left; reflexivity | left; reflexivity]. cbn [append] in E. injection E as E.
      destruct (IH b1 b2 (r_pe r2) k1 k2 ltac:(lia) B1 B2 T1 T2 E) as [-> ->]. split; reflexivity.
    - (* two aggregations *)
      rewrite !nm_agg in E. pose proof (ord_entity rels style_of index_of delta) as He.
      destruct H1 as (N1 & C1 & U1 & S1 & W1 & D1), H2 as (N2 & C2 & U2 & S2 & W2 & D2).
      set (c1 := last_child e path1) in *. set (c2 := last_child e path2) in *.
      assert (fpath_name rels (FAgg p1 bs1 path1 u1 w1 d1 None) = path_text rels c1 path1 u1) as P1.
      { unfold fpath_name, path_text. destruct u1; [|unfold edges_name; cbn [fpath]; rewrite map_map; reflexivity].
        destruct S1 as [(_ & Nb & B)|[_ ->]]; [|reflexivity]. destruct bs1 as [|b bs1]; [congruence|]. apply (He c1 b). apply B. }
      assert (fpath_name rels (FAgg p2 bs2 path2 u2 w2 d2 None) = path_text rels c2 path2 u2) as P2.
      { unfold fpath_name, path_text. destruct u2; [|unfold edges_name; cbn [fpath]; rewrite map_map; reflexivity].
        destruct S2 as [(_ & Nb & B)|[_ ->]]; [|reflexivity]. destruct bs2 as [|b bs2]; [congruence|]. apply (He c2 b). apply B. }
      rewrite P1, P2 in E.
      assert (forall w, w1 = Some w -> fsize w <= n /\ condition rels style_of index_of delta c1 w) as HW1. { intros w ->. split; [lia | exact W1]. }
      assert (forall w, w2 = Some w -> condition rels style_of index_of delta c2 w) as HW2. { intros w ->. exact W2. }
      assert (forall d, d1 = Some d -> delta d) as HD1 by (intros d ->; exact D1). assert (forall d, d2 = Some d -> delta d) as HD2 by (intros d ->; exact D2).
      destruct S1 as [((n1 & a1 & S1) & Nb1 & B1)|[S1 B1]], S2 as [((n2 & a2 & S2) & Nb2 & B2)|[S2 B2]].
      + destruct (st_agg _ Hst _ _ _ S1) as (G1 & Wd1 & _ & A1), (st_agg _ Hst _ _ _ S2) as (G2 & Wd2 & _ & A2).
        destruct bs1 as [|b1 bs1]; [congruence|]. destruct bs2 as [|b2 bs2]; [congruence|]. rewrite G1, G2 in E. cbn [map] in E. rewrite !agg_commas in E.
        apply (split_at special) in E as [-> E]; [|apply word_free; exact Wd1 | apply word_free; exact Wd2 | reflexivity | reflexivity]. cbn [append] in E. injection E as E.
        apply fold_ord in B1, B2. pose proof (Forall_inv B1) as Ob1. pose proof (Forall_inv B2) as Ob2.
        apply (path_decode rels style_of index_of delta Hst Hps true e path1 path2 u1 u2 c1 c2) in E as (<- & <- & Ec & E); try assumption.
        * assert (c2 = c1) as Ec' by congruence. rewrite Ec' in *. clear Ec Ec' c2. cbn [append] in E. injection E as E.
          destruct (Hb c1 b1 bs1 b2 bs2 _ _ ltac:(lia) B1 B2 (agg_tail rels w1 d1 a1 k1 A1) (agg_tail rels w2 d2 a2 k2 A2) E) as [<- E'].
          destruct (where_decode rels style_of index_of delta Hst n IH c1 w1 w2 _ _ HW1 HW2 (prev_closes d1 a1 k1) (prev_closes d2 a2 k2) E') as [<- E''].
          destruct (prev_decode delta Hdel d1 d2 a1 a2 k1 k2 HD1 HD2 A1 A2 E'') as (<- & <- & <-). rewrite (st_one _ Hst _ _ _ S1 S2). split; reflexivity.
        * exists b1. eexists. split; [reflexivity|]. split; [exact Ob1 | apply commas_term, (proj1 (agg_tail rels w1 d1 a1 k1 A1))].
        * exists b2. eexists. split; [reflexivity|]. split; [exact Ob2 | apply commas_term, (proj1 (agg_tail rels w2 d2 a2 k2 A2))].
      + exfalso. destruct (st_agg _ Hst _ _ _ S1) as (G1 & Wd1 & Nc & _). rewrite G1, (st_count _ Hst _ S2) in E. unfold call_name_agg in E. rewrite count_commas, !sapp_assoc in E.
        apply (split_at special) in E as [E _]; [congruence | apply word_free; exact Wd1 | reflexivity | reflexivity | reflexivity].
      + exfalso. destruct (st_agg _ Hst _ _ _ S2) as (G2 & Wd2 & Nc & _). rewrite G2, (st_count _ Hst _ S1) in E. unfold call_name_agg in E. rewrite count_commas, !sapp_assoc in E.
        apply (split_at special) in E as [E _]; [congruence | reflexivity | apply word_free; exact Wd2 | reflexivity | reflexivity].
      + rewrite (st_count _ Hst _ S1), (st_count _ Hst _ S2), !count_commas in E. cbn [append] in E. injection E as E.
        assert (forall w d k, is_char [" "; ","; ")"]%char (where_text rels w ++ prev_str d ++ String ")" k)) as Hch by (intros [w|] [d|] k; cbn; auto).
        apply (path_decode rels style_of index_of delta Hst Hps false e path1 path2 u1 u2 c1 c2) in E as (<- & <- & Ec & E); try assumption; [|apply Hch | apply Hch].
        assert (c2 = c1) as Ec' by congruence. rewrite Ec' in *. clear Ec Ec' c2.
        destruct (where_decode rels style_of index_of delta Hst n IH c1 w1 w2 _ _ HW1 HW2 (prev_closes d1 [] k1) (prev_closes d2 [] k2) E) as [<- E''].
        destruct (prev_decode delta Hdel d1 d2 [] [] k1 k2 HD1 HD2 ltac:(constructor) ltac:(constructor) E'') as (<- & _ & <-).
        rewrite B1, B2, (st_one _ Hst _ _ _ S1 S2). split; reflexivity.
    - exfalso. symmetry in E. rewrite nm_trans in E. apply (Hkind p2 bs2 k2 p1 bs1 path1 u1 w1 d1 k1); [exact (proj1 H2) | exact H1 | exact E].
    - exfalso. symmetry in E. rewrite nm_group, sapp_assoc in E. apply (Hkind p2 bs2 _ p1 bs1 path1 u1 w1 d1 k1) in E; [exact E | exact (proj1 H2) | exact H1].
    - exfalso. rewrite nm_trans in E. apply (Hkind p1 bs1 k1 p2 bs2 path2 u2 w2 d2 k2); [exact (proj1 H1) | exact H2 | exact E].
    - rewrite !nm_trans in E. destruct H1 as ((n1 & a1 & S1) & Nb1 & B1), H2 as ((n2 & a2 & S2) & Nb2 & B2). apply fold_ord in B1, B2.
      destruct (Hcall _ _ _ _ _ _ _ _ _ _ S1 S2 Nb1 Nb2 B1 B2 ltac:(lia) E) as (<- & <- & <-). split; reflexivity.
    - exfalso. rewrite nm_trans, nm_group, sapp_assoc in E. destruct H1 as ((n1 & a1 & S1) & Nb1 & B1), H2 as ((n2 & a2 & S2) & Nb2 & B2 & _). apply fold_ord in B1, B2.
      destruct (Hcall _ _ _ _ _ _ _ _ _ _ S1 S2 Nb1 Nb2 B1 B2 ltac:(lia) E) as (_ & _ & ->). destruct T1 as [T1|[T1|[_ T1]]]; try discriminate T1. exact (T1 eq_refl).
    - exfalso. rewrite nm_group, sapp_assoc in E. apply (Hkind p1 bs1 _ p2 bs2 path2 u2 w2 d2 k2) in E; [exact E | exact (proj1 H1) | exact H2].
    - exfalso. rewrite nm_trans, nm_group, sapp_assoc in E. destruct H1 as ((n1 & a1 & S1) & Nb1 & B1 & _), H2 as ((n2 & a2 & S2) & Nb2 & B2). apply fold_ord in B1, B2.
      destruct (Hcall _ _ _ _ _ _ _ _ _ _ S1 S2 Nb1 Nb2 B1 B2 ltac:(lia) E) as (_ & _ & <-). destruct T2 as [T2|[T2|[_ T2]]]; try discriminate T2. exact (T2 eq_refl).
    - rewrite !nm_group, !sapp_assoc in E. destruct H1 as ((n1 & a1 & S1) & Nb1 & B1 & Hg1), H2 as ((n2 & a2 & S2) & Nb2 & B2 & Hg2). apply fold_ord in B1, B2.
      destruct (Hcall _ _ _ _ _ _ _ _ _ _ S1 S2 Nb1 Nb2 B1 B2 ltac:(lia) E) as (<- & <- & E'). cbn [append] in E'. injection E' as E'.
      destruct (IH g1 g2 e k1 k2 ltac:(lia) Hg1 Hg2 T1 T2 E') as [<- <-]. split; reflexivity.
  Qed.

  (** two ordinary features of one entity with the same name are the same feature *)
  Theorem C50_names_partial e f1 f2 : ord e f1 -> ord e f2 -> nm f1 = nm f2 -> f1 = f2.
  Proof. intros H1 H2 E. apply (decode (fsize f1) f1 f2 e "" "" (le_n _) H1 H2 I I). rewrite E. reflexivity. Qed.

  (** the identifier "entity: name" tells ordinary features of all entities apart, so a request made of them never
      confuses two definitions *)
  Theorem C50_unique_names_partial e1 e2 f1 f2 : word e1 -> word e2 -> ord e1 f1 -> ord e2 f2 -> funique rels f1 = funique rels f2 -> f1 = f2.
  Proof.
    intros W1 W2 H1 H2. unfold funique. rewrite (ord_entity rels style_of index_of delta e1 f1 H1), (ord_entity rels style_of index_of delta e2 f2 H2). intros E.
    assert (forall e s, e ++ ": " ++ s = (e ++ ":") ++ " " ++ s) as Ha by (intros e s; rewrite sapp_assoc; reflexivity). rewrite !Ha in E.
    assert (forall e, word e -> free_of special (e ++ ":") = true) as Hf.
    { intros e We. pose proof (word_free e We) as Hw. clear -Hw. induction e as [|c e IH]; [reflexivity|]. cbn [append free_of] in *. apply andb_prop in Hw as [-> Hw]. exact (IH Hw). }
    apply (split_at special) in E as [E1 E2]; [|apply Hf; exact W1 | apply Hf; exact W2 | reflexivity | reflexivity].
    assert (e1 = e2) as <-. { clear -E1. revert e2 E1. induction e1 as [|c e1 IH]; intros [|d e2] E; cbn [append] in E; [reflexivity | | |injection E as -> E; rewrite (IH e2 E); reflexivity]; injection E as _ E; [destruct e2 | destruct e1]; discriminate E. }
    cbn [append] in E2. injection E2 as E2. exact (C50_names_partial e1 f1 f2 H1 H2 E2).
  Qed.
  Theorem C50_distinct_partial fs : (forall f, needed fs f -> exists e, word e /\ ord e f) -> distinct_names rels fs.
  Proof. intros H f g Hf Hg E. destruct (H f Hf) as (e1 & W1 & O1), (H g Hg) as (e2 & W2 & O2). exact (C50_unique_names_partial e1 e2 f g W1 W2 O1 O2 E). Qed.
End Main.

(** ** the hypotheses are met *)
Definition EqOne : prim := EqualScalar (VNum 1) "1".
Inductive demo_style : prim -> style -> Prop :=
| ds_sum : demo_style p_sum (Aggregate "SUM" [])
| ds_wsum : demo_style p_wsum (Aggregate "WSUM" [])
| ds_count : demo_style Count Counting
| ds_abs : demo_style p_abs (Call "ABSOLUTE" [])
| ds_cum : demo_style p_cumsum (Call "CUM_SUM" [])
| ds_eq : demo_style EqOne (Scalar "=" "1").
Definition three_days : tdelta := mkTd [("d", 3%Z)] (fun t => (t - 3 * 86400)%Z) "3 Days".
Definition demo_delta (d : tdelta) : Prop := d = three_days.
Definition demo_index (e : string) : string := "id".

Lemma word_intro s : s <> "" -> free_of (fun c => special c || Ascii.eqb c "=") s = true -> s <> "Last" -> word s.
Proof. intros. split; [|split]; assumption. Qed.
Ltac word_tac := apply word_intro; [discriminate | reflexivity | discriminate].

Lemma demo_styled : styled demo_style.
Proof.
  constructor.
  - intros p n args H. inversion H; subst; (split; [reflexivity|]); (split; [word_tac | constructor]).
  - intros p n args H. inversion H; subst; (split; [reflexivity|]); (split; [word_tac|]); (split; [discriminate | constructor]).
  - intros p H. inversion H; subst. reflexivity.
  - intros p op v H. inversion H; subst. split; [reflexivity|]. split; [discriminate|]. split; [reflexivity|]. split; [discriminate | reflexivity].
  - intros p q s H H'. inversion H; subst; inversion H'; subst; reflexivity.
  - intros p q n args args' H H'. inversion H; subst; inversion H'.
  - intros p args H. inversion H.
Qed.
Lemma demo_schema : plain_schema demo_rels.
Proof.
  constructor.
  - intros r Hr. cbn in Hr. in_cases Hr; (split; [word_tac|]); (split; word_tac).
  - intros r r' Hr Hr' Ec. cbn in Hr, Hr'. in_cases Hr; in_cases Hr'; intros; try reflexivity; discriminate.
  - intros r r' Hr Hr'. cbn in Hr, Hr'. in_cases Hr; in_cases Hr'; cbn; intros; discriminate.
Qed.
Lemma demo_deltas : deltas demo_delta.
Proof. split; [intros d ->; reflexivity | intros d d' -> ->; reflexivity]. Qed.
Lemma demo_path : backward_chain demo_rels "cust" demo_rels "event" /\ forall path', path' <> [] -> backward_chain demo_rels "cust" path' "event" -> path' = demo_rels.
Proof.
  split.
  - apply (chain_cons r_pe r_ce demo_rels (mkRel "cust" "id" "sess" "cid") _ "event"); [left; reflexivity|].
    apply (chain_cons r_pe r_ce demo_rels (mkRel "sess" "id" "event" "sid") _ "event"); [right; left; reflexivity|]. apply chain_nil.
  - intros [|r1 [|r2 [|r3 p]]] Hne H; [congruence| | |].
    + apply bchain_cons in H as (H1 & H2 & H3). apply bchain_nil in H3. cbn in H1. in_cases H1; discriminate.
    + apply bchain_cons in H as (H1 & H2 & H). apply bchain_cons in H as (H3 & H4 & H). apply bchain_nil in H. cbn in H1, H3. in_cases H1; in_cases H3; cbn in *; try discriminate. reflexivity.
    + apply bchain_cons in H as (H1 & H2 & H). apply bchain_cons in H as (H3 & H4 & H). apply bchain_cons in H as (H5 & H6 & _). cbn in H1, H3, H5. in_cases H1; in_cases H3; in_cases H5; discriminate.
Qed.

(** the demonstration features, and a count with a condition and a window *)
Definition f_recent : feat := FAgg Count [FIdent "event" "id" None] demo_rels true (Some (FTrans EqOne [f_dev] None)) (Some three_days) None.
Example C50_nonvacuous :
  styled demo_style /\ plain_schema demo_rels /\ deltas demo_delta /\
  (forall f, needed demo_fs f -> exists e, word e /\ ordinary demo_rels demo_style demo_index demo_delta e f) /\
  ordinary demo_rels demo_style demo_index demo_delta "cust" f_recent /\
  fname demo_rels f_recent = "COUNT(event WHERE sess.dev = 1, Last 3 Days)".
Proof.
  split; [exact demo_styled|]. split; [exact demo_schema|]. split; [exact demo_deltas|].
  assert (ordinary demo_rels demo_style demo_index demo_delta "event" f_amt) as Hamt by (split; [reflexivity | word_tac]).
  assert (ordinary demo_rels demo_style demo_index demo_delta "event" f_esid) as Hesid by (split; [reflexivity | word_tac]).
  assert (ordinary demo_rels demo_style demo_index demo_delta "event" f_dev) as Hdev by (split; [right; left; reflexivity|]; split; [reflexivity|]; split; [reflexivity | word_tac]).
  assert (ordinary demo_rels demo_style demo_index demo_delta "event" f_cum) as Hcum by (split; [exists "CUM_SUM", []; constructor|]; split; [discriminate|]; split; [exact Hamt | exact I]).
  assert (ordinary demo_rels demo_style demo_index demo_delta "event" f_cumby) as Hcumby by (split; [exists "CUM_SUM", []; constructor|]; split; [discriminate|]; split; [split; [exact Hamt | exact I] | exact Hesid]).
  assert (forall p n bs, demo_style p (Aggregate n []) -> bs <> [] -> Forall (ordinary demo_rels demo_style demo_index demo_delta "event") bs ->
    ordinary demo_rels demo_style demo_index demo_delta "cust" (FAgg p bs demo_rels true None None None)) as Hagg.
  { intros p n bs Hp Hne Hb. cbn [ordinary]. change (last_child "cust" demo_rels) with "event". split; [discriminate|]. split; [exact (proj1 demo_path)|]. split; [split; [intros _; exact (proj2 demo_path) | reflexivity]|].
    split; [|split; exact I]. left. split; [exists n, []; exact Hp|]. split; [exact Hne|]. apply (fold_ord demo_rels demo_style demo_index demo_delta). exact Hb. }
  assert (ordinary demo_rels demo_style demo_index demo_delta "cust" f_sum) as Hsum by (apply (Hagg _ "SUM"); [constructor | discriminate | constructor; [exact Hamt | constructor]]).
  split; [|split; [|reflexivity]].
  - intros f Hf. apply demo_needed in Hf. unfold P_Group.demo_reach in Hf. in_cases Hf.
    + exists "cust". split; [word_tac | exact Hsum].
    + exists "cust". split; [word_tac|]. apply (Hagg _ "WSUM"); [constructor | discriminate | constructor; [exact Hcum | constructor; [exact Hdev | constructor]]].
    + exists "cust". split; [word_tac|]. split; [exists "ABSOLUTE", []; constructor|]. split; [discriminate|]. split; [exact Hsum | exact I].
    + exists "cust". split; [word_tac|]. apply (Hagg _ "SUM"); [constructor | discriminate | constructor; [exact Hcumby | constructor]].
    + exists "event". split; [word_tac | exact Hamt].
    + exists "event". split; [word_tac | exact Hesid].
    + exists "event". split; [word_tac | exact Hcum].
    + exists "event". split; [word_tac | exact Hcumby].
    + exists "event". split; [word_tac | exact Hdev].
    + exists "sess". split; [word_tac|]. split; [reflexivity | word_tac].
  - cbn [ordinary f_recent]. change (last_child "cust" demo_rels) with "event". split; [discriminate|]. split; [exact (proj1 demo_path)|]. split; [split; [intros _; exact (proj2 demo_path) | reflexivity]|].
    split; [right; split; [constructor | reflexivity]|]. split; [right; split; [exists "=", "1"; constructor | exact Hdev] | reflexivity].
Qed.

(** ** what the name does not identify *)
Definition num_es : entityset :=
  mkES [mkEntity "p" "id" None [] None (mkDf ["id"; "x"] [[("id", VNum 1); ("x", VNum 5)]]);
        mkEntity "t" "id" None [] None
          (mkDf ["id"; "pid"; "a"; "b"; "c"; "s"; "p.x"]
            [[("id", VNum 1); ("pid", VNum 1); ("a", VNum 10); ("b", VNum 4); ("c", VNull); ("s", VStr "1"); ("p.x", VNum 7)];
             [("id", VNum 2); ("pid", VNum 1); ("a", VNum 10); ("b", VNum 4); ("c", VNum 3); ("s", VStr "2"); ("p.x", VNum 8)]])]
       [mkRel "p" "id" "t" "pid"].
Definition num_idvars (e : string) : list string := if String.eqb e "t" then ["id"; "pid"] else ["id"].
Definition num_run (fs : list feat) (ids : list val) : res matrix := run num_es num_idvars (fun l => l) fs no_appr no_pre 0 None true ids.
Definition tv (v : string) : feat := FIdent "t" v None.

(** subtraction is written without brackets: (a - b) - c and a - (b - c) share a name and differ in value; requesting
    both gives one of them twice *)
Theorem C50_brackets_refuted : exists f g,
  fname (es_rels num_es) f = "a - b - c" /\ fname (es_rels num_es) g = "a - b - c" /\
  num_run [f] [VNum 2] = Ok (mkMatrix ["a - b - c"] [(VNum 2, [VNum 3])]) /\
  num_run [g] [VNum 2] = Ok (mkMatrix ["a - b - c"] [(VNum 2, [VNum 9])]) /\
  num_run [f; g] [VNum 2] = Ok (mkMatrix ["a - b - c"; "a - b - c"] [(VNum 2, [VNum 9; VNum 9])]).
Proof.
  exists (FTrans SubtractNumeric [FTrans SubtractNumeric [tv "a"; tv "b"] None; tv "c"] None), (FTrans SubtractNumeric [tv "a"; FTrans SubtractNumeric [tv "b"; tv "c"] None] None).
  split; [reflexivity|]. split; [reflexivity|]. split; [vm_compute; reflexivity|]. split; vm_compute; reflexivity.
Qed.
(** comparing with the number 1 and with the text "1" *)
Theorem C50_scalar_refuted : exists f g n, fname (es_rels num_es) f = n /\ fname (es_rels num_es) g = n /\
  num_run [f] [VNum 1] = Ok (mkMatrix [n] [(VNum 1, [VBool false])]) /\ num_run [g] [VNum 1] = Ok (mkMatrix [n] [(VNum 1, [VBool true])]).
Proof.
  exists (FTrans (EqualScalar (VNum 1) "1") [tv "s"] None), (FTrans (EqualScalar (VStr "1") "1") [tv "s"] None), "s = 1".
  split; [reflexivity|]. split; [reflexivity|]. split; vm_compute; reflexivity.
Qed.
(** the name of a count does not say which variable is counted *)
Theorem C50_count_refuted : exists f g n, fname (es_rels num_es) f = n /\ fname (es_rels num_es) g = n /\
  num_run [f] [VNum 1] = Ok (mkMatrix [n] [(VNum 1, [VNum 2])]) /\ num_run [g] [VNum 1] = Ok (mkMatrix [n] [(VNum 1, [VNum 1])]).
Proof.
  exists (FAgg Count [tv "id"] [mkRel "p" "id" "t" "pid"] true None None None), (FAgg Count [tv "c"] [mkRel "p" "id" "t" "pid"] true None None None), "COUNT(t)".
  split; [reflexivity|]. split; [reflexivity|]. split; vm_compute; reflexivity.
Qed.
(** a variable whose name contains a dot, and the value of a parent *)
Theorem C50_dot_refuted : exists f g n, fname (es_rels num_es) f = n /\ fname (es_rels num_es) g = n /\
  num_run [f] [VNum 1] = Ok (mkMatrix [n] [(VNum 1, [VNum 7])]) /\ num_run [g] [VNum 1] = Ok (mkMatrix [n] [(VNum 1, [VNum 5])]).
Proof.
  exists (tv "p.x"), (FDirect (mkRel "p" "id" "t" "pid") (FIdent "p" "x" None) None), "p.x".
  split; [reflexivity|]. split; [reflexivity|]. split; vm_compute; reflexivity.
Qed.

Print Assumptions C50_names_partial.
Print Assumptions C50_unique_names_partial.
Print Assumptions C50_distinct_partial.
Print Assumptions C50_brackets_refuted.
Print Assumptions C50_scalar_refuted.
Print Assumptions C50_count_refuted.
Print Assumptions C50_dot_refuted.
