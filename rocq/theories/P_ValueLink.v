(** Direct features that are called like a link column: calculated correctly (C06, C63) unless some feature
    needs its whole entity. *)
From Verif Require Import Base BaseFacts M_Schema S_Schema M_Trie M_Table M_Query S_Query S_View M_Feature M_FeatureSet M_Calc S_Calc S_Group
  S_Plan S_Sem S_Approx S_Value S_Total X_Demo P_Value P_Total.

(** the customer of the event's session; the calculator's own link column for customers is called the same *)
Definition f_ecid : feat := FDirect (mkRel "sess" "id" "event" "sid") (FIdent "sess" "cid" None) None.
Definition f_scid : feat := FAgg p_sum [f_ecid] demo_rels true None None None.
Definition link_fs : list feat := [f_sum; f_scid].

Lemma link_needed f : needed link_fs f -> In f [f_sum; f_scid; f_amt; f_ecid; FIdent "sess" "cid" None].
Proof.
  intros (f0 & Hf0 & Hr). assert (In f0 [f_sum; f_scid; f_amt; f_ecid; FIdent "sess"%string "cid"%string None]) as H0 by (cbn in *; tauto). clear Hf0.
  induction Hr as [f|f d g Hd Hr IH]; [exact H0|]. apply IH. cbn in H0. in_cases H0; cbn in Hd; cbn; in_cases Hd; tauto.
Qed.

Lemma link_request ord : (forall l, Permutation (ord l) l) -> valid_request (demo_es []) demo_idvars ord None link_fs "cust"%string.
Proof.
  intros Hord. destruct (demo_request ord Hord) as [H1 H2 H3 H4 H5 H6 H7 H8]. constructor; try assumption.
  - assert (forall p bs, bs <> [] -> (forall b, In b bs -> wt demo_rels b /\ fentity b = "event"%string /\ fnout b = 1) -> wt demo_rels (FAgg p bs demo_rels true None None None)) as Hagg.
    { intros p bs Hne Hb. apply wt_agg with "event"%string; try discriminate; try (intros b Hin; apply Hb; exact Hin); [exact Hne|].
      unfold backward_chain, demo_rels at 2 3.
      apply (chain_cons r_pe r_ce demo_rels (mkRel "cust" "id" "sess" "cid") _ "event"); [left; reflexivity|].
      apply (chain_cons r_pe r_ce demo_rels (mkRel "sess" "id" "event" "sid") _ "event"); [right; left; reflexivity|]. apply chain_nil. }
    intros f Hf. cbn in Hf. in_cases Hf; (split; [apply Hagg; [discriminate|] | split; [intros [] | reflexivity]]).
    + intros b [<-|[]]. split; [constructor | split; reflexivity].
    + intros b [<-|[]]. split; [constructor; [cbn; auto | constructor | reflexivity] | split; reflexivity].
  - constructor.
    + intros f g Hf Hg. apply link_needed in Hf, Hg. cbn in Hf, Hg. in_cases Hf; in_cases Hg; vm_compute; intros E; try reflexivity; discriminate E.
    + intros f g i j n [Hf _] [Hg _] E Hi Hj. apply link_needed in Hf, Hg. cbn in Hf, Hg.
      in_cases Hf; in_cases Hg; try discriminate E; vm_compute in Hi, Hj; destruct i as [|[|i]]; try discriminate Hi; destruct j as [|[|j]]; try discriminate Hj; injection Hi as <-; try discriminate Hj; split; reflexivity.
    + intros f e n [Hf _] He Hn Hc. apply link_needed in Hf. cbn in Hf. in_cases Hf; try exact I; vm_compute in He; injection He as <-; vm_compute in Hn, Hc; in_cases Hn; exfalso; repeat (destruct Hc as [Hc|Hc]; [discriminate Hc|]); destruct Hc.
    + intros e v nm Hf. apply link_needed in Hf. cbn in Hf. repeat (destruct Hf as [Hf|Hf]; [try discriminate Hf; injection Hf as <- <- <-; reflexivity|]). destruct Hf.
    + intros b n nm Hf. apply link_needed in Hf. cbn in Hf. repeat (destruct Hf as [Hf|Hf]; [discriminate Hf|]). destruct Hf.
    + intros r c Hl. split.
      * apply (cn_links _ _ H7 r c Hl).
      * intros f [Hf _] E Hc. split.
        -- assert (r = mkRel "sess" "id" "event" "sid")%string as ->.
           { inversion Hl as [r0 r' Hr0 Hr E'|r' r0 c' Hr E' Hl']; subst.
             - cbn in Hr0, Hr. in_cases Hr0; in_cases Hr; cbn in E'; try discriminate E'. reflexivity.
             - apply demo_links in Hl' as [E2 _]. rewrite E2 in E'. cbn in Hr. in_cases Hr; discriminate E'. }
           apply link_needed in Hf. cbn in Hf. in_cases Hf; try discriminate E.
           ++ apply demo_links in Hl as [_ El]. match type of Hc with context [link_name ?x] => change x with demo_rels in Hc end. rewrite El in Hc. vm_compute in Hc. destruct Hc as [Hc|[]]. discriminate Hc.
           ++ exists (FIdent "sess" "cid" None). split; [reflexivity|]. split; [reflexivity | intros []].
        -- intros g [Hg _]. apply link_needed in Hg. cbn in Hg. in_cases Hg; reflexivity.
  - constructor.
    + intros f g [Hf _] [Hg _] E Ec _. apply link_needed in Hf, Hg. cbn in Hf, Hg. in_cases Hf; in_cases Hg; try discriminate E; try discriminate Ec; reflexivity.
    + intros f [Hf _]. apply link_needed in Hf. cbn in Hf. in_cases Hf; exact I.
    + intros f g a b [Hf _] _ E. apply link_needed in Hf. cbn in Hf. in_cases Hf; discriminate E.
    + intros f d n [Hf _] E. apply link_needed in Hf. cbn in Hf. in_cases Hf; discriminate E.
    + intros p bs path u wh prev nm [Hf _] r Hr. apply link_needed in Hf. cbn in Hf.
      repeat (destruct Hf as [Hf|Hf]; [try discriminate Hf; injection Hf as <- <- <- <- <- <- <-; cbn in Hr; in_cases Hr; reflexivity|]). destruct Hf.
    + intros p bs path u w prev nm [Hf _]. apply link_needed in Hf. cbn in Hf. repeat (destruct Hf as [Hf|Hf]; [discriminate Hf|]). destruct Hf.
    + intros r b nm b' nm' n [Hf _] [Hg _] _ _. apply link_needed in Hf, Hg. cbn in Hf, Hg.
      repeat (destruct Hf as [Hf|Hf]; [try discriminate Hf; clear -Hf Hg; repeat (destruct Hg as [Hg|Hg]; [try discriminate Hg; congruence|]); destruct Hg |]). destruct Hf.
    + intros f [Hf _]. apply link_needed in Hf. cbn in Hf. in_cases Hf; try exact I; intros t cs _; reflexivity.
    + intros p bs nm [Hf _]. apply link_needed in Hf. cbn in Hf. repeat (destruct Hf as [Hf|Hf]; [discriminate Hf|]). destruct Hf.
    + intros p bs g nm [Hf _]. apply link_needed in Hf. cbn in Hf. repeat (destruct Hf as [Hf|Hf]; [discriminate Hf|]). destruct Hf.
Qed.

Lemma link_runnable T : runnable (demo_es []) T None true link_fs.
Proof.
  constructor.
  - intros eid v nm Hf. apply link_needed in Hf. cbn in Hf. repeat (destruct Hf as [Hf|Hf]; [try discriminate Hf; injection Hf as <- <- <-; eexists; (split; [reflexivity | cbn; tauto])|]). destruct Hf.
  - intros f [Hf _]. apply link_needed in Hf. cbn in Hf. in_cases Hf; exact I.
  - intros p bs path u w prev nm [Hf _]. apply link_needed in Hf. cbn in Hf. repeat (destruct Hf as [Hf|Hf]; [discriminate Hf|]). destruct Hf.
  - intros p p' bs bs' path u u' wh prev nm nm' f g [Hf _] _ _ _ Hp. apply link_needed in Hf. cbn in Hf. unfold f in Hf.
    repeat (destruct Hf as [Hf|Hf]; [try discriminate Hf; injection Hf as <- <- <- <- <- <- <-; discriminate Hp|]). destruct Hf.
  - intros p bs path u wh prev nm [Hf _]. apply link_needed in Hf. cbn in Hf. left.
    repeat (destruct Hf as [Hf|Hf]; [try discriminate Hf; injection Hf as <- <- <- <- <- <- <-; vm_compute; auto|]). destruct Hf.
  - intros r b nm [Hf _] E. apply link_needed in Hf. cbn in Hf. repeat (destruct Hf as [Hf|Hf]; [try discriminate Hf; injection Hf as <- <- <-; reflexivity|]). destruct Hf.
  - intros r b nm r' c [Hf _] E. exfalso. apply link_needed in Hf. cbn in Hf. repeat (destruct Hf as [Hf|Hf]; [try discriminate Hf; injection Hf as <- <- <-; discriminate E|]). destruct Hf.
  - intros f b n nm [Hf _] _ Hb. apply link_needed in Hf. cbn in Hf. in_cases Hf; cbn in Hb; repeat (destruct Hb as [Hb|Hb]; [discriminate Hb|]); destruct Hb.
Qed.

(** the request is valid although the direct feature has the name of the link column; its answer *)
Example C06_link_nonvacuous :
  valid_request (demo_es []) demo_idvars (fun l => l) None link_fs "cust"%string /\ runnable (demo_es []) 8 None true link_fs /\
  link_column demo_rels (mkRel "sess" "id" "event" "sid")%string "cid"%string /\
  link_name demo_rels (mkRel "sess" "id" "event" "sid")%string "cid"%string = fname demo_rels f_ecid /\
  run (demo_es []) demo_idvars (fun l => l) link_fs no_appr no_pre 8 None true [VNum 2; VNum 1] =
    Ok (mkMatrix ["SUM(event.amt)"; "SUM(event.sess.cid)"]%string [(VNum 2, [VNum 4; VNum 2]); (VNum 1, [VNum 24; VNum 3])]).
Proof.
  split; [apply link_request; intros l; apply Permutation_refl|]. split; [apply link_runnable|].
  split; [apply (lc_first demo_rels (mkRel "cust" "id" "sess" "cid") (mkRel "sess" "id" "event" "sid"))%string; cbn; tauto|]. split; [reflexivity|]. vm_compute. reflexivity.
Qed.

(** With a running sum over all events the condition is needed.  SUM(event.CUM_SUM(sess.cid)) of customer 2 is
    1 + 1 + 1 + 2 = 5; asked together with customer 1 that is the answer, asked alone the answer is 2: the link column holds
    nothing for the events of other customers, and the direct feature of the same name is not calculated. *)
Definition f_ccid : feat := FTrans p_cumsum [f_ecid] None.
Definition f_sccid : feat := FAgg p_sum [f_ccid] demo_rels true None None None.

Theorem C06_link_full_refuted :
  wt demo_rels f_sccid /\ good_es (demo_es []) /\ index_present (demo_es []) /\ good_idvars (demo_es []) demo_idvars /\
  value_of (demo_es []) 8 None true f_sccid (VNum 2) = [VNum 5] /\
  run (demo_es []) demo_idvars (fun l => l) [f_sccid] no_appr no_pre 8 None true [VNum 1; VNum 2] =
    Ok (mkMatrix ["SUM(event.CUM_SUM(sess.cid))"]%string [(VNum 1, [VNum 6]); (VNum 2, [VNum 5])]) /\
  run (demo_es []) demo_idvars (fun l => l) [f_sccid] no_appr no_pre 8 None true [VNum 2] =
    Ok (mkMatrix ["SUM(event.CUM_SUM(sess.cid))"]%string [(VNum 2, [VNum 2])]).
Proof.
  destruct (demo_request (fun l => l) (fun l => Permutation_refl l)) as [H1 H2 H3 _ _ _ _ _].
  split; [|split; [exact H1|split; [exact H2|split; [exact H3|]]]].
  - apply wt_agg with "event"%string; try discriminate.
    + unfold backward_chain, demo_rels at 2 3.
      apply (chain_cons r_pe r_ce demo_rels (mkRel "cust" "id" "sess" "cid") _ "event"); [left; reflexivity|].
      apply (chain_cons r_pe r_ce demo_rels (mkRel "sess" "id" "event" "sid") _ "event"); [right; left; reflexivity|]. apply chain_nil.
    + intros b [<-|[]]. apply wt_trans with "event"%string; [discriminate | |]; intros b [<-|[]]; [constructor; [cbn; auto | constructor | reflexivity] | split; reflexivity].
    + intros b [<-|[]]. split; reflexivity.
  - vm_compute. repeat split.
Qed.

Print Assumptions C06_link_full_refuted.
