(** What an ordinary search returns is an ordinary request. *)
From Coq Require Import Permutation.
From Verif Require Import Base BaseFacts M_Schema S_Schema M_Table M_Query M_Feature M_FeatureSet M_Types M_Serialize M_Match M_DFS S_DFS S_Calc S_Sem S_Value S_Total M_Names S_Names S_Ordinary S_DFSMatrix
  L_Schema P_Schema L_View L_FeatureSet L_Names L_Ordinary L_DFS P_DFS P_Value P_EndToEnd.
Local Open Scope list_scope.

(** ** Chains in schemas without cycles *)
Section Chains.
  Variable rels : list relationship.
  Hypothesis acyclic : forall e, ~ reaches_cycle r_pe r_ce rels e.
  Lemma no_round_trip a q : q <> [] -> forward_chain rels a q a -> False.
  Proof.
    intros Hq H. apply (acyclic a). exists a, [], (rev q). split; [constructor|]. split; [intros E; apply Hq; rewrite <- (rev_involutive q), E; reflexivity | apply chain_rev; exact H].
  Qed.
  Lemma visited_prefix a p b x : forward_chain rels a p b -> In x (map r_pe p) -> exists q, q <> [] /\ forward_chain rels a q x.
  Proof.
    intros H. induction H as [a|r p b Hr H IH]; cbn [map]; [intros []|]. intros [<-|Hx].
    - exists [r]. split; [discriminate | constructor; [exact Hr | constructor]].
    - destruct (IH Hx) as (q & _ & Hq). exists (r :: q). split; [discriminate | constructor; assumption].
  Qed.
  Lemma visited_once a p b : forward_chain rels a p b -> NoDup (S_Schema.visited a p).
  Proof.
    unfold S_Schema.visited. intros H. induction H as [a|r p b Hr H IH]; cbn [map]; [constructor; [intros [] | constructor]|]. constructor; [|exact IH].
    intros Hin. destruct (visited_prefix (r_ce r) (r :: p) b (r_ce r)) as (q & Hq & Hc); [constructor; assumption | exact Hin | exact (no_round_trip _ q Hq Hc)].
  Qed.
  Lemma unique_flag c e u path : NoDup rels -> has_unique_forward_path rels c e = Ok u -> path <> [] -> backward_chain rels e path c ->
    (u = true <-> forall path', path' <> [] -> backward_chain rels e path' c -> path' = path).
  Proof.
    intros Hn Hu Hne Hp. pose proof (C17_has_unique_forward_path rels c e Hn) as H. rewrite Hu in H. destruct u; split; try discriminate.
    - intros _ path' _ Hp'. destruct H as (p & _ & _ & H). rewrite <- (rev_involutive path'), <- (rev_involutive path). f_equal.
      transitivity p; [|symmetry]; (apply H; [apply chain_rev; assumption | eapply visited_once, chain_rev; eassumption]).
    - reflexivity.
    - intros Hall. exfalso. destruct H as (p & q & Hpq & Fp & _ & Fq & _).
      assert (forall x, forward_chain rels c x e -> rev x = path) as X.
      { intros x Fx. apply Hall; [|apply chain_rev; exact Fx]. intros E. assert (x = []) as -> by (rewrite <- (rev_involutive x), E; reflexivity). apply chain_nil_inv in Fx. subst e.
        apply (no_round_trip c (rev path)); [intros E'; apply Hne; rewrite <- (rev_involutive path), E'; reflexivity | apply chain_rev; exact Hp]. }
      apply Hpq. rewrite <- (rev_involutive p), <- (rev_involutive q), (X p Fp), (X q Fq). reflexivity.
  Qed.
  Lemma chain_ends e path c : backward_chain rels e path c -> last_child e path = c.
  Proof.
    intros H. unfold last_child. induction H as [a|r p b Hr H IH]; [reflexivity|]. cbn [map]. destruct p as [|r' p]; [apply chain_nil_inv in H; exact H|]. cbn [map last] in *. 
    destruct (map r_ce p); [exact IH|]. cbn [last] in *. rewrite <- IH. clear. revert s. induction l as [|x l IH]; intros s; [reflexivity | cbn [last]; apply IH].
  Qed.
End Chains.

Lemma sub_index t : issub t YIndex = true -> t = YIndex.
Proof. destruct t; vm_compute; congruence. Qed.
Lemma weaken_index t : weaken t <> YIndex.
Proof. destruct t; discriminate. Qed.

Section Search.
  Variables (es : entityset) (style_of : prim -> style -> Prop).
  Variables (entities : list string) (variables : string -> list string) (vtypes : string -> string -> option vtyp) (interesting : string -> string -> list val) (iof : string -> option string).
  Variables (p_ret : prim -> option vtyp) (p_inputs : prim -> option (list (list vtyp))) (attr : prim -> pattr) (subc : nat -> nat -> bool) (eq_prim : val -> prim).
  Variables (arity_of : okey -> option nat) (lower : string -> string) (ordF : list feat -> list feat).
  Hypothesis ordF_perm : forall l, Permutation (ordF l) l.
  Variable A : dfs_args.
  Notation rels := (es_rels es).
  Notation dfs := (build_features entities variables vtypes interesting iof rels p_ret p_inputs attr subc eq_prim arity_of lower ordF A).
  Hypothesis Hes : good_es es.
  Hypothesis Hos : ordinary_schema es.
  Hypothesis Hsr : ordinary_search es style_of entities variables vtypes interesting p_ret p_inputs eq_prim A.
  Notation none := (fun _ : tdelta => False).
  Notation ord := (ordinary rels style_of (index_of es) none).
  Notation ftype := (ftype p_ret vtypes).

  Section Run.
  Variables (G : gopts) (D : option Z).
  Notation gen := (gen variables vtypes interesting rels p_ret p_inputs attr subc eq_prim A G D).
  Notation good := (good variables vtypes interesting rels p_ret p_inputs attr subc eq_prim A G D).
  Notation takes := (takes vtypes p_ret p_inputs).

  Ltac gcases H := destruct H as [f0 Hs|e v Ho Hlv Hv Hi Ht|b i Hb Hn Hi|p m path e ce f0 Hp Ho Hc Hne Hce Hig Hm [Hv Ht] Hk Hf|p m path e ce w src f0 Hp Ho Hc Hne Hce Hig Hm [Hv Ht] Hk Hw Hsrc Hl Hq Hf|p m e f0 Hp Ho Hig Hm [Hv Ht] Hu Hf|p m g e f0 Hp Ho Hig Hm [Hv Ht] Hu Hg Hge Hgw Hgv Hf|r b f0 Hr Ho Hp Hb He [Hw Hfr] Hf].
  Ltac noseed Hs := exfalso; rewrite (sr_seeds _ _ _ _ _ _ _ _ _ _ Hsr) in Hs; exact Hs.

  Lemma takes_len p m ts sigs : takes p m -> p_inputs p = Some (ts :: sigs) -> List.length m = List.length ts.
  Proof. intros Ht Es. destruct (Ht ts sigs Es) as (t & Hp & H2). rewrite <- (Permutation_length Hp). clear -H2. induction H2; cbn [List.length]; congruence. Qed.
  Lemma trans_good p m : In p (g_trans A ++ g_groups A) -> takes p m -> good_trans p (List.length m).
  Proof.
    intros Hp Ht. destruct (sr_declared _ _ _ _ _ _ _ _ _ _ Hsr p) as (ts & sigs & Es & Hts); [rewrite app_assoc; apply in_or_app; left; exact Hp|].
    rewrite (takes_len p m ts sigs Ht Es). eapply sr_good_trans; eassumption.
  Qed.
  Lemma agg_good p m : In p (g_aggs A) -> takes p m -> good_agg p (List.length m).
  Proof.
    intros Hp Ht. destruct (sr_declared _ _ _ _ _ _ _ _ _ _ Hsr p) as (ts & sigs & Es & Hts); [rewrite app_assoc; apply in_or_app; right; exact Hp|].
    rewrite (takes_len p m ts sigs Ht Es). eapply sr_good_agg; eassumption.
  Qed.

  Lemma gen_one f : gen f -> fnout f = 1.
  Proof.
    induction 1 as [f Hs Hso|e v Ho Hlv Hv Hi Ht|b i Hb IH Hn Hi|p m path e ce f Hp Ho Hc Hne Hce Hig Hm [Hv Ht] Hk Hf|p m path e ce w src f Hp Ho Hc Hne Hce Hig Hm [Hv Ht] Hk Hw Hsrc IH Hl Hq Hf|p m e f Hp Ho Hig Hm [Hv Ht] Hu Hf|p m g e f Hp Ho Hig Hm [Hv Ht] Hu Hg IH Hge Hgw Hgv Hf|r b f Hr Ho Hp Hb IH He Hw Hf].
    - noseed Hs.
    - reflexivity.
    - reflexivity.
    - apply mk_agg_eq in Hf as [_ [u ->]]. apply (agg_good p m Hp Ht).
    - apply mk_agg_eq in Hf as [_ [u ->]]. apply (agg_good p m Hp Ht).
    - apply mk_trans_eq in Hf as [_ ->]. apply (trans_good p m); [apply in_or_app; left; exact Hp | exact Ht].
    - apply mk_group_eq in Hf as ->. apply (trans_good p m); [apply in_or_app; right; exact Hp | exact Ht].
    - apply mk_direct_eq in Hf as ->. exact IH.
  Qed.
  Lemma ret_index p bs : In p (g_trans A ++ g_groups A ++ g_aggs A) ->
    match p_ret p with Some t => t | None => match bs with b :: _ => weaken (ftype b) | [] => YVariable end end <> YIndex.
  Proof. intros Hp. pose proof (sr_returns _ _ _ _ _ _ _ _ _ _ Hsr p Hp) as H. destruct (p_ret p) as [t|]; [congruence|]. destruct bs; [discriminate | apply weaken_index]. Qed.
  Lemma parent_index r : In r rels -> r_pv r = index_of es (r_pe r).
  Proof.
    intros Hr. destruct (proj2 Hes r Hr) as [(x & Hx) _]. unfold index_of. rewrite Hx. destruct (es_get_id es _ x Hx) as [Ei Hin]. destruct (proj1 Hes x Hin) as (_ & _ & _ & _ & _ & _ & Hpv). apply Hpv; [exact Hr | symmetry; exact Ei].
  Qed.
  Lemma gen_index f : gen f -> ftype f = YIndex -> exists e, f = FIdent e (index_of es e) None.
  Proof.
    induction 1 as [f Hs Hso|e v Ho Hlv Hv Hi Ht|b i Hb IH Hn Hi|p m path e ce f Hp Ho Hc Hne Hce Hig Hm [Hv Ht] Hk Hf|p m path e ce w src f Hp Ho Hc Hne Hce Hig Hm [Hv Ht] Hk Hw Hsrc IH Hl Hq Hf|p m e f Hp Ho Hig Hm [Hv Ht] Hu Hf|p m g e f Hp Ho Hig Hm [Hv Ht] Hu Hg IH Hge Hgw Hgv Hf|r b f Hr Ho Hp Hb IH He [Hw Hfr] Hf]; intros Hy.
    - noseed Hs.
    - cbn [M_Types.ftype] in Hy. destruct (vtypes e v) as [t|] eqn:Et; [|discriminate]. subst t. exists e. rewrite (sr_index _ _ _ _ _ _ _ _ _ _ Hsr e v Et). reflexivity.
    - rewrite (gen_one b Hb) in Hn. lia.
    - apply mk_agg_eq in Hf as [_ [u ->]]. exfalso. cbn [M_Types.ftype] in Hy. revert Hy. apply ret_index. do 2 (apply in_or_app; right). exact Hp.
    - apply mk_agg_eq in Hf as [_ [u ->]]. exfalso. cbn [M_Types.ftype] in Hy. revert Hy. apply ret_index. do 2 (apply in_or_app; right). exact Hp.
    - apply mk_trans_eq in Hf as [_ ->]. exfalso. cbn [M_Types.ftype] in Hy. revert Hy. apply ret_index. apply in_or_app; left. exact Hp.
    - apply mk_group_eq in Hf as ->. exfalso. cbn [M_Types.ftype] in Hy. pose proof (sr_returns _ _ _ _ _ _ _ _ _ _ Hsr p) as H. destruct (p_ret p) as [t|]; [apply H; [apply in_or_app; right; apply in_or_app; left; exact Hp | congruence]|].
      destruct m; exact (weaken_index _ Hy).
    - apply mk_direct_eq in Hf as ->. exfalso. cbn [M_Types.ftype] in Hy. destruct (IH Hy) as (e & ->). cbn [fentity] in He. subst e. cbn [feature_in_relationship_path existsb snd] in Hfr.
      rewrite (parent_index r Hr), !String.eqb_refl in Hfr. rewrite orb_true_r in Hfr. discriminate.
  Qed.
  Lemma gen_ident_None e1 v1 nm : gen (FIdent e1 v1 nm) -> nm = None /\ exists x, es_get es e1 = Ok x /\ In v1 (cols (e_df x)).
  Proof.
    intros H. remember (FIdent e1 v1 nm) as f eqn:Ef. gcases H.
    - noseed Hs.
    - injection Ef as -> -> <-. split; [reflexivity|]. eapply sr_variables; eassumption.
    - discriminate.
    - subst. apply mk_agg_eq in Hf as [_ [u [=]]].
    - subst. apply mk_agg_eq in Hf as [_ [u [=]]].
    - subst. apply mk_trans_eq in Hf as [_ [=]].
    - subst. apply mk_group_eq in Hf as [=].
    - subst. apply mk_direct_eq in Hf as [=].
  Qed.
  Lemma agg_unique p m path wh prev nm f : mk_agg p_ret p_inputs vtypes rels (fun _ _ => Ok tt) p m path wh prev nm = Ok f ->
    exists u b r, f = FAgg p m path u wh prev nm /\ hd_error m = Some b /\ hd_error path = Some r /\ has_unique_forward_path rels (fentity b) (r_pe r) = Ok u.
  Proof.
    unfold M_Serialize.mk_agg. destruct m as [|b m]; [discriminate|]. destruct (check_bases _) as [|]; cbn [bind]; [|discriminate]. destruct path as [|r path]; [discriminate|]. destruct (negb _); [discriminate|].
    destruct (has_unique_forward_path _ _ _) as [u|] eqn:Eu; cbn [bind]; [|discriminate]. intros H. exists u, b, r. split; [|auto]. destruct wh; [destruct (String.eqb _ _); [|discriminate]|]; cbn [bind] in H; destruct prev; cbn [bind] in H; destruct (check_types _ _ _ _); congruence.
  Qed.

  Lemma chain_first e path c r : backward_chain rels e path c -> hd_error path = Some r -> r_pe r = e.
  Proof. intros H E. destruct H; [discriminate|]. injection E as ->. reflexivity. Qed.

  (** one aggregation, whatever its condition *)
  Lemma agg_ordinary p m path wh e ce f : (forall d, In d m -> gen d /\ fentity d = ce /\ ord ce d) -> In p (g_aggs A) -> backward_chain rels e path ce -> path <> [] -> takes p m ->
    (forall w, wh = Some w -> match w with FTrans q [b] None => (exists op v, style_of q (Scalar op v)) /\ ord ce b | _ => False end) ->
    mk_agg p_ret p_inputs vtypes rels (fun _ _ => Ok tt) p m path wh None None = Ok f -> ord e f /\ fentity f = e.
  Proof.
    intros Hm Hp Hc Hne Ht Hw Hf. destruct (agg_unique _ _ _ _ _ _ _ Hf) as (u & b & r & -> & Eb & Er & Hu).
    assert (m <> []) as Hmn by (intros ->; discriminate Eb). pose proof (chain_first _ _ _ _ Hc Er) as Ere. rewrite Ere in Hu.
    assert (In b m) as Hbm by (destruct m; [discriminate | injection Eb as ->; left; reflexivity]). rewrite (proj1 (proj2 (Hm b Hbm))) in Hu.
    pose proof (chain_ends rels e path ce Hc) as Hlast.
    split; [|destruct path as [|r0 path]; [congruence|]; injection Er as ->; exact Ere]. cbn [ordinary]. rewrite Hlast. split; [exact Hne|]. split; [exact Hc|].
    split; [apply (unique_flag rels (sr_acyclic _ _ _ _ _ _ _ _ _ _ Hsr)); [exact (sr_once _ _ _ _ _ _ _ _ _ _ Hsr) | exact Hu | exact Hne | exact Hc]|].
    split; [|split; [|exact I]].
    - destruct (sr_aggs _ _ _ _ _ _ _ _ _ _ Hsr p Hp) as [Ha|(Hcount & sigs & Es)].
      + left. split; [exact Ha|]. split; [exact Hmn|]. clear -Hm. induction m as [|d m IH]; cbn [fold_right]; [exact I|]. split; [apply Hm; left; reflexivity | apply IH; intros d' Hd'; apply Hm; right; exact Hd'].
      + right. split; [exact Hcount|]. destruct (Ht _ _ Es) as (t & Hpm & H2). inversion H2 as [|x y t' l' Hxy H2']; subst. inversion H2'; subst. apply Permutation_length_1_inv in Hpm. subst m.
        apply sub_index in Hxy. destruct (Hm x (or_introl eq_refl)) as (Gx & Ex & _). destruct (gen_index x Gx Hxy) as (e' & ->). cbn [fentity] in Ex. subst e'. reflexivity.
    - destruct wh as [w|]; [|exact I]. right. specialize (Hw w eq_refl). exact Hw.
  Qed.

  Lemma gen_ordinary f : gen f -> ord (fentity f) f.
  Proof.
    assert (forall n f, fsize f <= n -> gen f -> ord (fentity f) f) as H; [|intros Hf; exact (H _ f (le_n _) Hf)].
    clear f. induction n as [|n IH]; intros f Hn Hg; [destruct f; cbn [fsize] in Hn; lia|].
    assert (forall d, In d (fdeps f) -> gen d -> ord (fentity d) d) as IHd by (intros d Hd Gd; apply IH; [pose proof (fsize_dep f d Hd); lia | exact Gd]). clear IH Hn. gcases Hg.
    - noseed Hs.
    - cbn [fentity ordinary]. split; [reflexivity|]. destruct (sr_variables _ _ _ _ _ _ _ _ _ _ Hsr e v Hv) as (x & Hx & Hin). destruct (es_get_id es _ x Hx) as [_ He]. apply (proj2 (os_words _ Hos x He) v Hin).
    - rewrite (gen_one b Hb) in *. lia.
    - destruct (agg_unique _ _ _ _ _ _ _ Hf) as (u & b0 & r0 & E0 & _). destruct (agg_ordinary p m path None e ce f0) as [H1 H2]; try assumption; [|discriminate | rewrite H2; exact H1].
      intros d Hd. destruct (Hm d Hd) as (Gd & Ed & _). split; [exact Gd|]. split; [exact Ed|]. rewrite <- Ed. apply IHd; [|exact Gd]. rewrite E0. unfold fdeps. cbn [fbases fwhere]. apply in_or_app. left. exact Hd.
    - destruct (agg_unique _ _ _ _ _ _ _ Hf) as (u & b0 & r0 & E0 & _). destruct (agg_ordinary p m path (Some w) e ce f0) as [H1 H2]; try assumption; [| |rewrite H2; exact H1].
      + intros d Hd. destruct (Hm d Hd) as (Gd & Ed & _). split; [exact Gd|]. split; [exact Ed|]. rewrite <- Ed. apply IHd; [|exact Gd]. rewrite E0. unfold fdeps. cbn [fbases fwhere]. apply in_or_app. left. exact Hd.
      + intros w' [= <-]. destruct (where_eq _ _ _ _ _ _ _ _ Hw) as (v & nm & x & Esrc & Hxi & ->). subst src. destruct (gen_ident_None _ _ _ Hsrc) as [-> (y & Hy & Hin)].
        split; [apply (proj1 (sr_eq _ _ _ _ _ _ _ _ _ _ Hsr _ _ x Hxi))|]. cbn [ordinary]. split; [reflexivity|]. destruct (es_get_id es _ y Hy) as [_ He]. apply (proj2 (os_words _ Hos y He) v Hin).
    - apply mk_trans_eq in Hf as [Hmn ->]. assert (fentity (FTrans p m None) = e) as -> by (destruct m as [|b m]; [congruence | cbn [fentity]; apply (Hm b); left; reflexivity]).
      cbn [ordinary]. split; [eapply sr_trans; [exact Hsr | apply in_or_app; left; exact Hp]|]. split; [exact Hmn|]. apply fold_ord, Forall_forall. intros d Hd. destruct (Hm d Hd) as (Gd & <- & _). apply IHd; [|exact Gd]. unfold fdeps. cbn [fbases fwhere]. rewrite app_nil_r. exact Hd.
    - apply mk_group_eq in Hf as ->. destruct (sr_declared _ _ _ _ _ _ _ _ _ _ Hsr p) as (ts & sigs & Es & Hts); [apply in_or_app; right; apply in_or_app; left; exact Hp|].
      assert (m <> []) as Hmn. { intros ->. apply Hts. pose proof (takes_len p [] ts sigs Ht Es) as L. destruct ts; [reflexivity | discriminate L]. }
      assert (fentity (FGroup p m g None) = e) as -> by (destruct m as [|b m]; [congruence | cbn [fentity]; apply (Hm b); left; reflexivity]).
      cbn [ordinary]. split; [eapply sr_trans; [exact Hsr | apply in_or_app; right; exact Hp]|]. split; [exact Hmn|]. split.
      + apply fold_ord, Forall_forall. intros d Hd. destruct (Hm d Hd) as (Gd & <- & _). apply IHd; [|exact Gd]. unfold fdeps. cbn [fbases fwhere]. rewrite app_nil_r. apply in_or_app. left. exact Hd.
      + rewrite <- Hge. apply IHd; [|exact Hg]. unfold fdeps. cbn [fbases fwhere]. rewrite app_nil_r. apply in_or_app. right. left. reflexivity.
    - apply mk_direct_eq in Hf as ->. cbn [fentity ordinary]. split; [exact Hr|]. split; [reflexivity|]. rewrite <- He. apply IHd; [left; reflexivity | exact Hb].
  Qed.

  (** *** what each needed feature is *)
  Lemma good_prim f : good f -> good_primitive f.
  Proof.
    intros [H|(e & src & Hw & _)].
    - gcases H; try exact I.
      + noseed Hs.
      + apply mk_agg_eq in Hf as [_ [u ->]]. apply (agg_good p m Hp Ht).
      + apply mk_agg_eq in Hf as [_ [u ->]]. apply (agg_good p m Hp Ht).
      + apply mk_trans_eq in Hf as [_ ->]. apply (trans_good p m); [apply in_or_app; left; exact Hp | exact Ht].
      + apply mk_group_eq in Hf as ->. apply (trans_good p m); [apply in_or_app; right; exact Hp | exact Ht].
      + apply mk_direct_eq in Hf as ->. exact I.
    - destruct (where_eq _ _ _ _ _ _ _ _ Hw) as (v & nm & x & _ & Hxi & ->). apply (sr_good_eq _ _ _ _ _ _ _ _ _ _ Hsr _ _ _ Hxi).
  Qed.
  Lemma good_ident e1 v1 nm : good (FIdent e1 v1 nm) -> exists x, es_get es e1 = Ok x /\ In v1 (cols (e_df x)).
  Proof. intros [H|(e & src & Hw & _)]; [apply (gen_ident_None _ _ _ H)|]. destruct (where_eq _ _ _ _ _ _ _ _ Hw) as (v & n & x & _ & _ & [=]). Qed.
  Lemma good_aggregation p1 m1 path1 u1 wh1 prev1 nm1 : good (FAgg p1 m1 path1 u1 wh1 prev1 nm1) ->
    In p1 (g_aggs A) /\ prev1 = None /\ takes p1 m1 /\ path1 <> [] /\ (exists e1 c1, backward_chain rels e1 path1 c1 /\ forall b, In b m1 -> fentity b = c1 /\ gen b) /\
    forall w, wh1 = Some w -> exists e1 v1 x b, In x (interesting e1 v1) /\ w = FTrans (eq_prim x) [b] None.
  Proof.
    intros [H|(e & src & Hw & _)]; [|destruct (where_eq _ _ _ _ _ _ _ _ Hw) as (v & n & x & _ & _ & [=])]. remember (FAgg p1 m1 path1 u1 wh1 prev1 nm1) as f1 eqn:Ef. gcases H.
    - noseed Hs.
    - discriminate.
    - discriminate.
    - subst. apply mk_agg_eq in Hf as [_ [u E]]. injection E as -> -> -> -> -> -> ->. split; [exact Hp|]. split; [reflexivity|]. split; [exact Ht|]. split; [exact Hne|]. split; [|discriminate].
      exists e, ce. split; [exact Hc|]. intros b Hb. destruct (Hm b Hb) as (H1 & H2 & _). auto.
    - subst. apply mk_agg_eq in Hf as [_ [u E]]. injection E as -> -> -> -> -> -> ->. split; [exact Hp|]. split; [reflexivity|]. split; [exact Ht|]. split; [exact Hne|]. split.
      + exists e, ce. split; [exact Hc|]. intros b Hb. destruct (Hm b Hb) as (H1 & H2 & _). auto.
      + intros w' [= <-]. destruct (where_eq _ _ _ _ _ _ _ _ Hw) as (v & n & x & _ & Hxi & ->). eauto 8.
    - subst. apply mk_trans_eq in Hf as [_ [=]].
    - subst. apply mk_group_eq in Hf as [=].
    - subst. apply mk_direct_eq in Hf as [=].
  Qed.
  Lemma gen_transform p1 m1 nm1 : gen (FTrans p1 m1 nm1) -> In p1 (g_trans A).
  Proof.
    intros H. remember (FTrans p1 m1 nm1) as f1 eqn:Ef. gcases H; try discriminate.
    - noseed Hs.
    - subst. apply mk_agg_eq in Hf as [_ [u [=]]].
    - subst. apply mk_agg_eq in Hf as [_ [u [=]]].
    - subst. apply mk_trans_eq in Hf as [_ E]. injection E as -> -> ->. exact Hp.
    - subst. apply mk_group_eq in Hf as [=].
    - subst. apply mk_direct_eq in Hf as [=].
  Qed.
  Lemma good_full f : good f -> (forall p, In p (g_trans A ++ g_groups A) -> p_full p = false) -> uses_full f = false.
  Proof.
    intros [H|(e & src & Hw & _)] Hfull.
    - gcases H; try reflexivity.
      + noseed Hs.
      + apply mk_agg_eq in Hf as [_ [u ->]]. reflexivity.
      + apply mk_agg_eq in Hf as [_ [u ->]]. reflexivity.
      + apply mk_trans_eq in Hf as [_ ->]. apply Hfull. apply in_or_app. left. exact Hp.
      + apply mk_group_eq in Hf as ->. apply Hfull. apply in_or_app. right. exact Hp.
      + apply mk_direct_eq in Hf as ->. reflexivity.
    - destruct (where_eq _ _ _ _ _ _ _ _ Hw) as (v & nm & x & _ & Hxi & ->). apply (sr_good_eq _ _ _ _ _ _ _ _ _ _ Hsr _ _ _ Hxi).
  Qed.
  Lemma good_direct r1 b1 nm1 : good (FDirect r1 b1 nm1) -> In r1 rels /\ gen b1 /\ fentity b1 = r_pe r1 /\ feature_in_relationship_path [(true, r1)] b1 = false.
  Proof.
    intros [H|(e & src & Hw & _)]; [|destruct (where_eq _ _ _ _ _ _ _ _ Hw) as (v & n & x & _ & _ & [=])]. remember (FDirect r1 b1 nm1) as f1 eqn:Ef. gcases H; try discriminate.
    - noseed Hs.
    - subst. apply mk_agg_eq in Hf as [_ [u [=]]].
    - subst. apply mk_agg_eq in Hf as [_ [u [=]]].
    - subst. apply mk_trans_eq in Hf as [_ [=]].
    - subst. apply mk_group_eq in Hf as [=].
    - subst. apply mk_direct_eq in Hf as E. injection E as -> -> ->. auto.
  Qed.
  End Run.

  Lemma dfs_needed ret tf fuel fs x : dfs ret tf fuel = Ok fs -> needed fs x -> exists G D, good variables vtypes interesting rels p_ret p_inputs attr subc eq_prim A G D x.
  Proof.
    intros H (f & Hf & Hx). destruct (dfs_gen _ _ _ _ _ _ _ _ _ _ _ _ _ _ ordF_perm _ _ _ _ _ f H Hf) as (G & _ & _ & _ & Hg & _). exists G, (depth_limit entities A).
    eapply good_reaches; [exact Hx | left; exact Hg |]. intros (s & Hs & _). rewrite (sr_seeds _ _ _ _ _ _ _ _ _ _ Hsr) in Hs. destruct Hs.
  Qed.
  Lemma dfs_ordinary ret tf fuel fs : dfs ret tf fuel = Ok fs -> ordinary_features es style_of none (g_target A) fs.
  Proof.
    intros H. constructor.
    - exact (sr_styled _ _ _ _ _ _ _ _ _ _ Hsr).
    - constructor; intros; contradiction.
    - split; intros d; contradiction.
    - destruct (dfs_inv _ _ _ _ _ _ _ _ _ _ _ _ _ _ ordF_perm _ _ _ _ _ H) as (G & d & Ht & _). eapply sr_entities; eassumption.
    - intros f Hf. destruct (dfs_gen _ _ _ _ _ _ _ _ _ _ _ _ _ _ ordF_perm _ _ _ _ _ f H Hf) as (G & _ & _ & <- & Hg & _). eapply gen_ordinary. exact Hg.
    - intros f Hf. destruct (dfs_needed _ _ _ _ _ H Hf) as (G & D & Hg). eapply good_prim. exact Hg.
    - intros p bs path u w prev nm Hf Hin. destruct (dfs_needed _ _ _ _ _ H Hf) as (G & D & Hg). destruct (good_aggregation _ _ _ _ _ _ _ _ _ Hg) as (_ & _ & _ & _ & (e & c & _ & Hb) & Hw).
      destruct (Hw w eq_refl) as (e1 & v1 & x & b & Hxi & ->). destruct (Hb _ Hin) as [_ Hgen]. apply (proj2 (sr_eq _ _ _ _ _ _ _ _ _ _ Hsr _ _ x Hxi)). eapply gen_transform. exact Hgen.
    - destruct (sr_full _ _ _ _ _ _ _ _ _ _ Hsr) as [Hfull|Htwo]; [left | right].
      + intros f Hf. destruct (dfs_needed _ _ _ _ _ H Hf) as (G & D & Hg). eapply good_full; [exact Hg | exact Hfull].
      + intros r b nm Hf Hl. destruct (dfs_needed _ _ _ _ _ H Hf) as (G & D & Hg). destruct (good_direct _ _ _ _ _ Hg) as (Hr & Hgb & He & _).
        destruct b as [e v m|r' b' m| | | |]; try contradiction; destruct m; try contradiction.
        * destruct Hl as (r2 & H2 & E2 & _). cbn [fentity] in He. apply (Htwo r2 r H2 Hr). congruence.
        * cbn [fentity] in He. destruct (good_direct _ _ _ _ _ (or_introl Hgb)) as (Hr' & _). apply (Htwo r' r Hr' Hr). exact He.
  Qed.
  Lemma dfs_answerable ret tf fuel fs T tw incl : dfs ret tf fuel = Ok fs -> owned es p_inputs A tw incl T -> answerable es T tw incl fs.
  Proof.
    intros H Hown. constructor.
    - intros e v nm Hf. destruct (dfs_needed _ _ _ _ _ H Hf) as (G & D & Hg). eapply good_ident. exact Hg.
    - intros p bs path u w prev nm Hf. destruct (dfs_needed _ _ _ _ _ H Hf) as (G & D & Hg). destruct (good_aggregation _ _ _ _ _ _ _ _ _ Hg) as (_ & _ & _ & _ & _ & Hw). destruct (Hw w eq_refl) as (e1 & v1 & x & b & Hxi & ->).
      apply (sr_good_eq _ _ _ _ _ _ _ _ _ _ Hsr _ _ x Hxi).
    - intros p p' bs bs' path path' u u' wh wh' prev prev' nm nm' Hf Hf'. destruct (dfs_needed _ _ _ _ _ H Hf) as (G & D & Hg). destruct (dfs_needed _ _ _ _ _ H Hf') as (G' & D' & Hg').
      apply (sr_count _ _ _ _ _ _ _ _ _ _ Hsr); [apply (good_aggregation _ _ _ _ _ _ _ _ _ Hg) | apply (good_aggregation _ _ _ _ _ _ _ _ _ Hg')].
    - intros p bs path u wh prev nm Hf. destruct (dfs_needed _ _ _ _ _ H Hf) as (G & D & Hg). destruct (good_aggregation _ _ _ _ _ _ _ _ _ Hg) as (Hp & Hprev & Ht & Hne & (e & c & Hc & Hb) & _).
      destruct (Hown p Hp) as [(H1 & t & sigs & Es)|Ho].
      + left. cbn [single_column]. split; [exact H1|]. split; [rewrite (takes_len p bs _ _ Ht Es); reflexivity | apply (agg_good p bs Hp Ht)].
      + right. split; [exact Hprev|]. intros b r Hbin Hr. apply (Ho e path c r Hne Hc). destruct (Hb b Hbin) as [E _]. rewrite <- E. exact Hr.
    - intros r nm nm' r2 Hf. exfalso. destruct (dfs_needed _ _ _ _ _ H Hf) as (G & D & Hg). destruct (good_direct _ _ _ _ _ Hg) as (_ & _ & _ & E). cbn [feature_in_relationship_path existsb snd] in E. rewrite !String.eqb_refl, orb_true_r in E. discriminate.
  Qed.
  Lemma dfs_defaults ret tf fuel fs : dfs ret tf fuel = Ok fs -> missing_defaults p_inputs A -> no_silent_default fs.
  Proof.
    intros H Hd f Hf. destruct f as [| |p bs path u wh prev nm| | |]; try (left; exact I). assert (needed fs (FAgg p bs path u wh prev nm)) as Hn by (exists (FAgg p bs path u wh prev nm); split; [exact Hf | constructor]).
    destruct (dfs_needed _ _ _ _ _ H Hn) as (G & D & Hg). destruct (good_aggregation _ _ _ _ _ _ _ _ _ Hg) as (Hp & _ & Ht & _). destruct (Hd p Hp) as [(H1 & t & sigs & Es)|E]; [left | right; exact E].
    cbn [single_column]. split; [exact H1|]. split; [rewrite (takes_len p bs _ _ Ht Es); reflexivity | apply (agg_good p bs Hp Ht)].
  Qed.
End Search.
