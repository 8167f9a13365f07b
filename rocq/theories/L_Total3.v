(** Calculating the tree of features does not fail. *)
From Verif Require Import Base BaseFacts M_Schema S_Schema M_Trie M_Table M_Query S_Query L_Query S_View L_View
  M_Feature M_FeatureSet M_Calc S_Calc S_Group S_Plan S_Sem S_Approx S_Value S_Total L_Trie L_Frame L_FeatureSet L_Plan L_Group P_Select L_Schema
  L_Value1 L_Value2 L_Value3 L_Value4 L_Value5 L_Value6 L_Value7 L_Total1 L_Total2.

Lemma dget_Forall2' {V W : Type} (P : edge -> V -> W -> Prop) (l : list (edge * V)) (l' : list (edge * W)) :
  Forall2 (fun a b => fst a = fst b /\ P (fst a) (snd a) (snd b)) l l' ->
  forall ed v, dget edge_eqb ed l = Some v -> exists w, dget edge_eqb ed l' = Some w /\ P ed v w.
Proof.
  induction 1 as [|[a v0] [b w0] l l' [E HP] H IH]; intros ed v Hv; [discriminate|]. cbn [fst snd] in *. subst b. cbn [dget] in *.
  destruct (edge_eqb_spec ed a) as [->|Hn]; [|apply IH; exact Hv]. injection Hv as ->. eauto.
Qed.

Section Total3.
  Variables (es : entityset) (idvars : string -> list string) (T : Z) (tw : option window) (incl : bool) (fs : list feat).
  Notation rels := (es_rels es).
  Notation nothing := (fun _ : feat => @None (row -> list val)).
  Notation fname := (fname rels).
  Notation fnames := (fnames rels).
  Notation funique := (funique rels).
  Notation R := (rows_at es T tw incl).
  Notation owner := (owner es T tw incl).
  Notation calculated := (calculated fs).
  Notation sees := (sees es T tw incl nothing fs).
  Notation sees_row := (sees_row es T tw incl nothing fs).
  Notation lvl_ok := (lvl_ok es T tw incl).
  Notation lnames := (lnames es).
  Notation good := (good es T tw incl nothing fs).
  Notation kids := (kids es T tw incl nothing fs).
  Notation look_ok := (look_ok es T tw incl nothing fs).
  Notation plan_ok := (plan_ok es nothing fs).
  Notation parent_ok := (parent_ok es T tw incl nothing fs).
  Notation has := (has es idvars fs).
  Notation look_total := (look_total es).

  Hypothesis Hes : good_es es.
  Hypothesis Hip : index_present es.
  Hypothesis Hiv : good_idvars es idvars.
  Hypothesis Hw : win_time tw.
  Hypothesis Hcn : clear_names es fs.
  Hypothesis Hwt : forall f, needed fs f -> wt rels f.
  Hypothesis Hpf : plain_features rels fs.
  Hypothesis Hrn : runnable es T tw incl fs.

  Variables (by_name : list (string * feat)) (ord : list string -> list string).
  Hypothesis Hby : forall n f, dget String.eqb n by_name = Some f -> needed fs f /\ funique f = n.
  Hypothesis Hall : forall f, needed fs f -> dget String.eqb (funique f) by_name = Some f.
  Hypothesis Hord : forall l, Permutation (ord l) l.

  Lemma Hov : forall f g, nothing f = Some g -> is_aggregation f.
  Proof. discriminate. Qed.
  Lemma Hovl : forall f (g : row -> list val) (r : row), needed fs f -> nothing f = Some g -> List.length (g r) = fnout f.
  Proof. discriminate. Qed.

  (** ** trees with all their frames and columns *)
  Definition knext (K : list string) (ed : edge) : list string :=
    if fst ed then [] else map (fun v => (parent_name rels (snd ed) ++ "." ++ v)%string) K ++ [r_cv (snd ed)].

  Fixpoint complete (eid : string) (K : list string) (ft : ftrie) (tr : dtrie) {struct ft} : Prop :=
    match ft, tr with
    | TNode (full, ff, nf) ch, TNode (o3, o5) subs =>
      (full = true -> exists d3 F, o3 = Some d3 /\ has eid K F d3 /\ forall f, In (funique f) ff -> F f) /\
      (exists d5 F, o5 = Some d5 /\ has eid K F d5 /\ forall f, In (funique f) (ff ++ nf) -> F f) /\
      (fix go (ch : list (edge * ftrie)) (subs : list (edge * dtrie)) : Prop :=
         match ch, subs with
         | [], [] => True
         | (ed, s) :: ch', (ed', sub) :: subs' => (ed = ed' /\ complete (edst ed) (knext K ed) s sub) /\ go ch' subs'
         | _, _ => False
         end) ch subs
    end.

  Definition kids_complete (K : list string) (ch : list (edge * ftrie)) (subs : list (edge * dtrie)) : Prop :=
    Forall2 (fun a b => fst a = fst b /\ complete (edst (fst a)) (knext K (fst a)) (snd a) (snd b)) ch subs.

  Lemma complete_unfold eid K full ff nf ch o3 o5 subs : complete eid K (TNode (full, ff, nf) ch) (TNode (o3, o5) subs) <->
    (full = true -> exists d3 F, o3 = Some d3 /\ has eid K F d3 /\ forall f, In (funique f) ff -> F f) /\
    (exists d5 F, o5 = Some d5 /\ has eid K F d5 /\ forall f, In (funique f) (ff ++ nf) -> F f) /\ kids_complete K ch subs.
  Proof.
    cbn [complete]. unfold kids_complete. split; intros (H1 & H2 & H3); (split; [exact H1|]; split; [exact H2|]); clear H1 H2.
    - revert subs H3. induction ch as [|[ed s] ch IH]; intros [|[ed' sub] subs] H; try contradiction; constructor; [apply H | apply IH, H].
    - revert subs H3. induction ch as [|[ed s] ch IH]; intros subs H; inversion H as [|a [ed' sub] l l' Hab Hl]; subst; [exact I|]. split; [exact Hab | apply IH; exact Hl].
  Qed.

  Definition pend (eid : string) (p : list edge) : string := fold_left (fun _ ed => edst ed) p eid.
  Definition kend (K : list string) (p : list edge) : list string := fold_left knext p K.

  Lemma V_absent v (ch : list (edge * ftrie)) ed p : dget edge_eqb ed ch = None -> V (TNode v ch) (ed :: p) = (false, [], []).
  Proof. intros E. unfold V. change (tvalue (match @dget edge ftrie edge_eqb ed ch with Some s0 => gn p s0 | None => gn p (trie_new fnode0) end) = (false, [], [])).
    rewrite E, get_node_new. reflexivity.
  Qed.

  (** a lookup succeeds where the plan has a feature *)
  Lemma complete_look (b : bool) : forall p eid K ft tr n, complete eid K ft tr -> In n (nff (V ft p) ++ nnf (V ft p)) -> (b = true -> nfull (V ft p) = true) ->
    exists d F, lookup b tr p = Ok d /\ has (pend eid p) (kend K p) F d /\ forall f, In (funique f) (if b then nff (V ft p) else nff (V ft p) ++ nnf (V ft p)) -> F f.
  Proof.
    induction p as [|ed p IH]; intros eid K [[[full ff] nf] ch] [[o3 o5] subs] n Hc Hn Hb; apply complete_unfold in Hc as (H3 & H5 & Hk).
    - change (V (TNode (full, ff, nf) ch) []) with ((full, ff, nf) : fnode) in *. cbn [nff nnf nfull fst snd] in *. unfold lookup. cbn [get_node tvalue]. unfold pend, kend. cbn [fold_left]. destruct b.
      + destruct (H3 (Hb eq_refl)) as (d3 & F & -> & Hh & HF). exists d3, F. auto.
      + destruct H5 as (d5 & F & -> & Hh & HF). exists d5, F. auto.
    - destruct (dget edge_eqb ed ch) as [s|] eqn:Es.
      + rewrite (V_child _ ch ed s p Es) in *. destruct (dget_Forall2' (fun ed s sub => complete (edst ed) (knext K ed) s sub) _ _ Hk ed s Es) as (sub & Esub & Hsub).
        destruct (IH _ _ s sub n Hsub Hn Hb) as (d & F & H1 & H2 & HF). exists d, F. split; [|split; [exact H2 | exact HF]].
        unfold lookup in *. cbn [get_node children]. change (dget edge_eqb ed subs) with (@dget edge dtrie edge_eqb ed subs). rewrite Esub. exact H1.
      + exfalso. rewrite (V_absent _ ch ed p Es) in Hn. destruct Hn.
  Qed.

  Lemma kids_lookup (b full : bool) K ff nf ch subs eid ed p n : kids_complete K ch subs -> let ft : ftrie := TNode (full, ff, nf) ch in
    In n (nff (V ft (ed :: p)) ++ nnf (V ft (ed :: p))) -> (b = true -> nfull (V ft (ed :: p)) = true) ->
    exists d F, lookup b (TNode (None, None) subs) (ed :: p) = Ok d /\ has (pend eid (ed :: p)) (kend K (ed :: p)) F d /\
      forall f, In (funique f) (if b then nff (V ft (ed :: p)) else nff (V ft (ed :: p)) ++ nnf (V ft (ed :: p))) -> F f.
  Proof.
    intros Hk ft Hn Hb. destruct (dget edge_eqb ed ch) as [s|] eqn:Es.
    - assert (V ft (ed :: p) = V s p) as EV by exact (V_child (full, ff, nf) ch ed s p Es). rewrite EV in Hn, Hb |- *. clear EV. destruct (dget_Forall2' (fun ed s sub => complete (edst ed) (knext K ed) s sub) _ _ Hk ed s Es) as (sub & Esub & Hsub).
      destruct (complete_look b p _ _ s sub n Hsub Hn Hb) as (d & F & H1 & H2 & HF). exists d, F. split; [|split; [exact H2 | exact HF]].
      unfold lookup in *. cbn [get_node children]. change (dget edge_eqb ed subs) with (@dget edge dtrie edge_eqb ed subs). rewrite Esub. exact H1.
    - exfalso. assert (V ft (ed :: p) = (false, [], [])) as EV by exact (V_absent (full, ff, nf) ch ed p Es). rewrite EV in Hn. destruct Hn.
  Qed.

  (** ** backward paths *)
  Lemma pend_chain path : forall a ce, backward_chain rels a path ce -> pend a (map (fun r => (false, r)) path) = ce.
  Proof.
    induction path as [|r path IH]; intros a ce H; [apply chain_nil_inv in H; exact H|]. apply chain_cons_inv in H as (_ & _ & H).
    unfold pend. cbn [map fold_left]. apply (IH _ _ H).
  Qed.

  Lemma kend_link K path : path <> [] -> (forall r, In r (tl path) -> parent_name rels r = r_pe r) ->
    In (relationship_variable_id path) (kend K (map (fun r => (false, r)) path)).
  Proof.
    induction path as [|r π IH] using rev_ind; [congruence|]. intros _ Htl. unfold kend. rewrite map_app, fold_left_app. cbn [map fold_left]. unfold knext at 1. cbn [fst snd].
    apply in_app_iff. destruct π as [|r0 π0]; [right; left; reflexivity|]. left. set (π := r0 :: π0) in *.
    assert (π <> []) as Hne by discriminate. rewrite rv_id_snoc by exact Hne.
    assert (parent_name rels r = r_pe r) as <- by (apply Htl; unfold π; cbn [app tl]; apply in_app_iff; right; left; reflexivity).
    apply in_map_iff. eexists. split; [reflexivity|]. apply IH; [exact Hne|]. intros r1 Hr1. apply Htl. unfold π in *. cbn [app tl] in *. apply in_app_iff. auto.
  Qed.

  (** ** what a plan guarantees about dependencies *)
  Definition plan_deps (ft : ftrie) : Prop :=
    forall p f, calculated f ->
      (In (funique f) (nff (V ft p)) -> forall d, In d (fdeps f) -> In (funique (unslice d)) (nff (V ft (p ++ fpath f)))) /\
      (In (funique f) (nnf (V ft p)) -> forall d, In d (fdeps f) -> In (funique (unslice d)) (nff (V ft (p ++ fpath f)) ++ nnf (V ft (p ++ fpath f)))) /\
      (In (funique f) (nff (V ft p)) -> ~ In (funique f) (nnf (V ft p))).

  Lemma plan_deps_child v ch ed s : twf (TNode v ch) -> plan_deps (TNode v ch) -> In (ed, s) ch -> plan_deps s.
  Proof.
    intros Ht Hp Hin p f C. apply twf_unfold in Ht as [Hnd _]. assert (dget edge_eqb ed ch = Some s) as Hg by (apply (dget_NoDup_In _ edge_eqb_spec); assumption).
    destruct (Hp (ed :: p) f C) as (H1 & H2 & H3). cbn [app] in H1, H2. rewrite !(V_child v ch ed s _ Hg) in *. auto.
  Qed.

  Lemma index_idvars eid e : es_get es eid = Ok e -> In (index_of es eid) (idvars eid).
  Proof. intros He. rewrite (index_of_eq es eid e He). destruct (es_get_id es eid e He) as [Hid Hin]. rewrite <- Hid. apply (proj1 (proj2 (Hiv e Hin))). Qed.
  Lemma child_idvars r : In r rels -> In (r_cv r) (idvars (r_ce r)).
  Proof. intros Hr. destruct (child_get es Hes r Hr) as (e & He). destruct (es_get_id es _ e He) as [Hid Hin]. rewrite <- Hid. apply (proj2 (proj2 (proj2 (Hiv e Hin))) r Hr). symmetry. exact Hid. Qed.
  Lemma key_idvars eid e var : es_get es eid = Ok e -> key_col es eid var -> In var (idvars eid).
  Proof. intros He [->|(r & Hr & <- & ->)]; [eapply index_idvars; exact He | apply child_idvars; exact Hr]. Qed.

  Lemma calculated_unslice f d : calculated f -> In d (fdeps f) -> needed fs d /\ calculated (unslice d) /\ fentity (unslice d) = fentity d.
  Proof.
    intros [N _] Hd. pose proof (needed_dep fs f d N Hd) as Nd. destruct (wt_unslice rels d (Hwt d Nd)) as (_ & Hs & Ee). split; [exact Nd|]. split; [|exact Ee].
    split; [|exact Hs]. destruct d; try exact Nd. cbn [unslice]. eapply needed_dep; [exact Nd | left; reflexivity].
  Qed.

  (** lookups from a node *)
  Lemma node_look (b full : bool) eid e L q ff nf ch subs f : es_get es eid = Ok e ->
    kids full eid L q ch subs -> kids_complete (lnames L) ch subs -> plan_ok (TNode (full, ff, nf) ch) -> plan_deps (TNode (full, ff, nf) ch) ->
    calculated f -> fentity f = eid -> In (funique f) (if b then ff else nf) ->
    look_total (lookup b (TNode (None, None) subs)) f.
  Proof.
    intros He Hk Hkc Hpl Hpd C E Hin. set (ft := TNode (full, ff, nf) ch) in *.
    assert (forall q1 q2, b = true -> fpath f = q1 ++ q2 -> nfull (V ft q1) = true) as Hfull.
    { intros q1 q2 Hb Ep. subst b. destruct (Hpl []) as (_ & _ & Pf & _). exact (Pf f C Hin q1 q2 Ep). }
    assert (forall d, In d (fdeps f) -> In (funique (unslice d)) (if b then nff (V ft (fpath f)) else nff (V ft (fpath f)) ++ nnf (V ft (fpath f)))) as Hdeps.
    { intros d Hd. destruct (Hpd [] f C) as (P1 & P2 & _). destruct b; [exact (P1 Hin d Hd) | exact (P2 Hin d Hd)]. }
    assert (forall d, In d (fdeps f) -> In (funique (unslice d)) (nff (V ft (fpath f)) ++ nnf (V ft (fpath f)))) as Hdeps'.
    { intros d Hd. specialize (Hdeps d Hd). destruct b; [apply in_app_iff; left|]; exact Hdeps. }
    assert (look_ok (lookup b (TNode (None, None) subs)) eid (if b then R eid else filter q (R eid)) f) as Hlk.
    { apply (kids_look es T tw incl nothing fs Hes Hip Hw Hcn Hov Hwt Hpf b full eid e L q ff nf ch subs f He Hk C E eq_refl). intros Hb q1 q2 Ep. exact (Hfull q1 q2 Hb Ep). }
    destruct f as [ | r bf nm | p bs path u wh prev nm | | | ]; try exact I; cbn [L_Total2.look_total].
    - cbn [fpath fdeps fbases fwhere app] in *.
      destruct (kids_lookup b full (lnames L) ff nf ch subs eid (true, r) [] (funique (unslice bf)) Hkc) as (d & F & H1 & H2 & HF); [apply Hdeps'; left; reflexivity | intros Hb; apply (Hfull [(true, r)] [] Hb eq_refl)|].
      exists d. split; [exact H1|]. change (pend eid [(true, r)]) with (r_pe r) in H2.
      pose proof (Hwt _ (proj1 C)) as W. inversion W as [|r' b' nm' Hr Hbw Hbe| | | |]; subst. destruct (parent_get es Hes r Hr) as (ep & Hep). split.
      + apply (hc_vars _ _ _ _ _ _ _ H2). rewrite (parent_index' es Hes r Hr). eapply index_idvars; exact Hep.
      + destruct (calculated_unslice _ bf C (or_introl eq_refl)) as (Nb & Cb & Eb). pose proof (HF _ (Hdeps bf (or_introl eq_refl))) as HFb.
        assert (is_slice bf \/ ~ is_slice bf) as [Hs|Hs] by (destruct bf; cbn [is_slice]; auto).
        * assert (fnout bf = 1) as Hn by (destruct bf; try contradiction; reflexivity). rewrite (single_names rels bf Hn). intros c [<-|[]].
          eapply has_column; [exact Hcn | exact Hwt | exact H2 | exact Nb | exact Hbe | exact Hn | exact HFb].
        * assert (unslice bf = bf) as Eu by (destruct bf; try reflexivity; exfalso; apply Hs; exact I). rewrite Eu in *.
          exact (hc_feats _ _ _ _ _ _ _ H2 bf Cb Hbe HFb).
    - destruct (agg_base es fs Hwt _ _ _ _ _ _ _ C) as (ce & Hbne & Hpne & Hch & Hb & Hwh).
      assert (backward_chain rels eid path ce) as Hch' by (rewrite <- E; exact Hch).
      assert (exists b0, In b0 bs) as (b0 & Hb0) by (destruct bs as [|b0 bs]; [congruence | exists b0; left; reflexivity]).
      assert (forall x, In x bs -> In x (fdeps (FAgg p bs path u wh prev nm))) as Hbd by (intros x Hx; unfold fdeps; cbn [fbases]; apply in_app_iff; auto).
      assert (exists r π, path = r :: π) as (r & π & Epath) by (destruct path; [congruence | eauto]).
      pose proof (Hdeps' b0 (Hbd b0 Hb0)) as Hn0. cbn [fpath] in Hn0, Hdeps, Hfull. rewrite Epath in Hn0. cbn [map] in Hn0.
      destruct (kids_lookup b full (lnames L) ff nf ch subs eid (false, r) (map (fun r => (false, r)) π) (funique (unslice b0)) Hkc Hn0) as (base & F & H1 & H2 & HF).
      { intros Hbt. apply (Hfull _ [] Hbt). rewrite Epath, app_nil_r. reflexivity. }
      change ((false, r) :: map (fun r : relationship => (false, r)) π) with (map (fun r : relationship => (false, r)) (r :: π)) in H1, H2, HF. rewrite <- Epath in H1, H2, HF. clear r π Epath Hn0.
      rewrite (pend_chain path eid ce Hch') in H2. exists base. split; [exact H1|].
      assert (In (relationship_variable_id path) (cols base)) as Hgb.
      { apply (hc_links _ _ _ _ _ _ _ H2). apply kend_link; [exact Hpne | exact (pf_links rels fs Hpf _ _ _ _ _ _ _ C)]. }
      split; [exact Hgb|]. split.
      { intros b1 ec ti Hb1 Hec Et. destruct (Hb b1 Hb1) as (_ & Eb1 & _). rewrite Eb1 in Hec. apply (hc_vars _ _ _ _ _ _ _ H2). destruct (es_get_id es _ ec Hec) as [Hid Hin']. rewrite <- Hid.
        apply (proj1 (proj2 (proj2 (Hiv ec Hin'))) ti Et). }
      assert (forall d, In d (fdeps (FAgg p bs path u wh prev nm)) -> needed fs d /\ fentity d = ce /\ fnout d = 1) as Hdep1.
      { intros d Hd. unfold fdeps in Hd. cbn [fbases fwhere] in Hd. apply in_app_iff in Hd as [Hd|Hd]; [apply Hb; exact Hd|]. destruct wh as [w|]; [|destruct Hd]. destruct Hd as [<-|[]]. apply Hwh. reflexivity. }
      assert (forall d, In d (fdeps (FAgg p bs path u wh prev nm)) -> In (fname d) (cols base)) as Hdc.
      { intros d Hd. destruct (Hdep1 d Hd) as (Nd & Ed & Hn). eapply has_column; [exact Hcn | exact Hwt | exact H2 | exact Nd | exact Ed | exact Hn | apply HF; apply Hdeps; exact Hd]. }
      split; [exact Hdc|].
      cbn [L_Value5.look_ok] in Hlk. destruct Hlk as [_ Hlk]. destruct (Hlk ce) as (q' & Hq & _); [intros x Hx; apply (Hb x Hx)|]. destruct (Hq base H1) as (L' & HL' & Hs & Hown). clear Hq Hlk.
      destruct Hs as [_ Hs]. split.
      + intros w x Ew Hx. destruct (Forall2_In_l _ _ _ _ Hs Hx) as (c & Hc & Hsr). destruct (Hwh w Ew) as (Nw & Eew & Hnw).
        rewrite (base_cell es T tw incl nothing fs Hes Hcn Hov Hwt ce L' (cols base) x c w HL' Hsr Nw Eew Hnw); [|apply Hdc; unfold fdeps; apply in_app_iff; right; cbn [fwhere]; rewrite Ew; left; reflexivity].
        rewrite sem_with_none. subst wh. apply (rn_where es T tw incl fs Hrn _ _ _ _ _ _ _ C). rewrite Eew. apply filter_In in Hc. apply Hc.
      + destruct (rn_columns es T tw incl fs Hrn _ _ _ _ _ _ _ C) as [Hsc|[Hp Hnn]]; [left; exact Hsc|]. right. split; [exact Hp|]. intros x Hx.
        destruct (Forall2_In_l _ _ _ _ Hs Hx) as (c & Hc & Hsr). rewrite (Hown x c Hc Hsr Hgb). apply (Hnn b0 c Hb0). destruct (Hb b0 Hb0) as (_ & -> & _). apply filter_In in Hc. apply Hc.
  Qed.

  (** ** the frame a node starts from *)
  Lemma necessary_total eid e names : es_get es eid = Ok e -> (forall n, In n names -> exists f, calculated f /\ fentity f = eid /\ n = funique f) ->
    exists cs, necessary_columns idvars by_name eid names = Ok cs /\ List.incl (idvars eid) cs /\ List.incl cs (cols (e_df e)) /\
      forall f, calculated f -> is_ident f -> In (funique f) names -> List.incl (fnames f) cs.
  Proof.
    intros He Hn. unfold necessary_columns.
    destruct (mapM_total (fun n => match dget String.eqb n by_name with Some (FIdent _ v _) => Ok [v] | Some _ => Ok [] | None => Err KeyError end) names) as (fcols & Hf).
    { intros n Hin. destruct (Hn n Hin) as (f & C & _ & ->). rewrite (Hall f (proj1 C)). destruct f; eauto. }
    rewrite Hf. cbn [bind]. eexists. split; [reflexivity|].
    assert (forall c, In c (dedup_by String.eqb [] (idvars eid ++ List.concat fcols)) <-> In c (idvars eid) \/ In c (List.concat fcols)) as Hd.
    { intros c. rewrite (dedup_In String.eqb String.eqb_spec), in_app_iff. cbn. tauto. }
    split; [intros c Hc; apply Hd; auto|]. split.
    - intros c Hc. apply Hd in Hc as [Hc|Hc].
      + destruct (es_get_id es eid e He) as [Hid Hin]. rewrite <- Hid in Hc. apply (proj1 (Hiv e Hin)). exact Hc.
      + apply in_concat in Hc as (l & Hl & Hc). destruct (mapM_In_Ok' _ _ _ _ Hf Hl) as (n & Hx & Hin). destruct (Hn n Hin) as (f & C & E & ->). rewrite (Hall f (proj1 C)) in Hx.
        destruct f as [e0 v nm| | | | |]; injection Hx as <-; try contradiction. destruct Hc as [<-|[]]. destruct (rn_variables es T tw incl fs Hrn e0 v nm (proj1 C)) as (e' & He' & Hv).
        cbn [fentity] in E. subst e0. rewrite He in He'. injection He' as <-. exact Hv.
    - intros f C Hi Hin c Hc. destruct (mapM_In_Ok _ _ _ _ Hf Hin) as (l & Hx & Hl). rewrite (Hall f (proj1 C)) in Hx. destruct f as [e0 v nm| | | | |]; try contradiction. injection Hx as <-.
      rewrite (single_names rels (FIdent e0 v nm) eq_refl) in Hc. destruct Hc as [<-|[]]. rewrite (cn_identity es fs Hcn e0 v nm (proj1 C)). apply Hd. right. apply in_concat. exists [v]. split; [exact Hl | left; reflexivity].
  Qed.

  Lemma query_total eid e (full : bool) fvar fvals cs : es_get es eid = Ok e -> key_col es eid fvar -> List.incl cs (cols (e_df e)) ->
    exists d0, query_by_values es eid (if full then @None (list val) else Some fvals) (if full then @None string else Some fvar) (Some cs) (Some T) tw incl = Ok d0 /\ cols d0 = cs.
  Proof.
    intros He Hk Hcs. destruct (ent_good es Hes eid e He) as (Hwf & Hind & Hnd & _).
    destruct (query_exact es eid e (if full then @None (list val) else Some fvals) (if full then @None string else Some fvar) (Some cs) T tw incl He Hwf Hind Hnd Hw) as (kp & sh & d & H1 & H2 & _).
    - destruct full; cbn [qvar]; [exact (proj1 (proj2 Hwf)) | eapply key_col_raw; eassumption].
    - intros cs' [= <-]. exact Hcs.
    - exists d. split; [exact H1 | exact H2].
  Qed.

  Definition parent_total (parent : option (relationship * list string * df)) : Prop :=
    match parent with None => True | Some (r, avs, pdf) => In (r_pv r) (cols pdf) /\ List.incl avs (cols pdf) end.

  Lemma ancestor_total eid L fvar fvals d0 parent : parent_ok eid L fvar fvals parent -> parent_total parent -> lvl_ok eid L -> List.incl (idvars eid) (cols d0) ->
    exists d1 anc, match parent with
    | None => Ok (d0, [])
    | Some (r, avs, pdf) =>
      do (d, new) <- match avs with [] => Ok (d0, []) | _ => add_ancestor es d0 pdf avs r end;
      Ok (d, new ++ [r_cv r])
    end = Ok (d1, anc) /\ List.incl (cols d0) (cols d1) /\ List.incl (lnames L) (cols d1).
  Proof.
    intros Hp Ht HL Hi. destruct parent as [[[r avs] pdf]|].
    - destruct Hp as (P & L0 & -> & -> & _ & _ & Ee). destruct Ht as [Ht1 Ht2]. inversion HL as [|r' P' L' Hr HL0 HP E]; subst.
      assert (In (r_cv r) (cols d0)) as Hcv by (apply Hi, child_idvars; exact Hr).
      destruct (lnames L0) as [|v0 vs0] eqn:En.
      + exists d0, [r_cv r]. split; [reflexivity|]. split; [apply incl_refl|]. cbn [L_Value1.lnames]. rewrite En. cbn. intros c [<-|[]]. exact Hcv.
      + rewrite <- En in *. unfold add_ancestor. destruct (check_cols_ok pdf (r_pv r :: lnames L0)) as (us & ->); [intros c [<-|Hc]; [exact Ht1 | apply Ht2; exact Hc]|].
        cbn [bind]. rewrite check_col_Ok' by exact Hcv. cbn [bind]. eexists. eexists. split; [reflexivity|]. cbn [cols]. split; [apply incl_appl, incl_refl|].
        cbn [L_Value1.lnames]. intros c Hc. apply in_app_iff in Hc as [Hc|[<-|[]]]; apply in_app_iff; auto.
    - cbn [L_Value7.parent_ok] in Hp. subst L. exists d0, []. split; [reflexivity|]. split; [apply incl_refl | intros c []].
  Qed.

  Lemma isin_total d c vals : In c (cols d) -> exists d', isin_filter d c vals = Ok d' /\ cols d' = cols d.
  Proof. intros H. unfold isin_filter. rewrite check_col_Ok' by exact H. cbn [bind]. eexists. split; reflexivity. Qed.

  Lemma has_same eid K F d d' : cols d' = cols d -> has eid K F d -> has eid K F d'.
  Proof. intros E [H1 H2 H3 H4]. constructor; rewrite ?E; assumption. Qed.

  (** ** a node *)
  Lemma calc_node_total : forall ft eid L fvar fvals parent,
    typed rels (node_names rels calculated) eid ft -> twf ft -> plan_ok ft -> plan_deps ft -> lvl_ok eid L -> parent_ok eid L fvar fvals parent -> parent_total parent ->
    key_col es eid fvar -> (fvar = index_of es eid \/ ~ In VNull fvals) -> (exists e, es_get es eid = Ok e) ->
    exists tr, calc_node es idvars by_name ord T tw incl ft eid (trie_new None) fvar fvals parent = Ok tr /\ complete eid (lnames L) ft tr.
  Proof.
    induction ft as [[[full ff] nf] ch IH] using trie_ind2. intros eid L fvar fvals parent Hty Htw Hpl Hpd HL Hpar Hpt Hkey Hnull (e & He).
    apply typed_unfold in Hty as [Hnames Hch]. destruct Hnames as (Nff & Nnf & Nfull). cbn [calc_node]. rewrite He. cbn [bind].
    destruct (necessary_total eid e (ff ++ nf) He) as (cs & Hcs & Hiv' & Hraw & Hids).
    { intros n Hn. apply in_app_iff in Hn as [Hn|Hn]; [destruct (Nff n Hn) as (f & C & E & En) | destruct (Nnf n Hn) as (f & C & E & En & _)]; eauto. }
    rewrite Hcs. cbn [bind]. destruct (query_total eid e full fvar fvals cs He Hkey Hraw) as (d0 & Hd0 & Ec0). rewrite Hd0. cbn [bind].
    destruct (ancestor_total eid L fvar fvals d0 parent Hpar Hpt HL) as (d1 & anc & Hd1 & Hc1 & Hl1); [rewrite Ec0; exact Hiv'|]. rewrite Hd1. cbn [bind].
    destruct (node_start es idvars T tw incl nothing fs Hes Hip Hiv Hw Hcn Hov by_name eid e L full fvar fvals (ff ++ nf) cs d0 parent d1 anc He HL Hpar Hkey (proj2 (proj2 (proj2 (proj2 (Hpl []))))) Hcs Hd0 Hd1) as (S1 & -> & Hpc1).
    set (q := inb fvar fvals) in *. set (rs1 := if full then R eid else filter q (R eid)) in *.
    set (F0 := fun f => is_ident f /\ In (funique f) (ff ++ nf)).
    assert (has eid (lnames L) F0 d1) as H1.
    { constructor.
      - intros c Hc. apply Hc1. rewrite Ec0. apply Hiv'. exact Hc.
      - exact Hl1.
      - intros f C E [Hi Hin] c Hc. apply Hc1. rewrite Ec0. exact (Hids f C Hi Hin c Hc).
      - intros c Hc. destruct (Hpc1 c Hc) as [Hx|Hx]; [left; eauto | right; left; exact Hx]. }
    assert (In fvar (cols d1)) as Hfv by (apply (hc_vars _ _ _ _ _ _ _ H1); eapply key_idvars; eassumption).
    destruct (isin_total d1 fvar fvals Hfv) as (dq & Hdq & Ecq).
    assert (List.incl (filter q (R eid)) (R eid)) as Hfi by (intros x Hx; apply filter_In in Hx; apply Hx).
    assert (NoDup (map (cell (index_of es eid)) (R eid))) as HnR by (apply R_NoDup; assumption).
    assert (List.incl rs1 (R eid) /\ NoDup (map (cell (index_of es eid)) rs1)) as [Hi1 Hn1] by (unfold rs1; destruct full; split; auto; [apply incl_refl | apply NoDup_map_filter; exact HnR]).
    assert (exists fd, (if full then isin_filter d1 fvar fvals else Ok d1) = Ok fd /\ cols fd = cols d1 /\ sees eid L fd (filter q (R eid))) as (fd & Hfd & Ecf & Sfd).
    { unfold rs1 in *. destruct full; [|exists d1; auto]. exists dq. split; [exact Hdq|]. split; [exact Ecq|].
      apply (isin_sees es T tw incl nothing fs Hes Hip Hw Hcn Hov eid e L fvar fvals d1 dq (R eid) He HL Hkey Hnull S1 (incl_refl _) Hdq). }
    rewrite Hfd. cbn [bind].
    (* the children *)
    assert (forall ed s, In (ed, s) ch -> plan_ok s /\ twf s /\ plan_deps s) as Hchp.
    { intros ed s Hin. split; [eapply plan_ok_child; eassumption|]. split; [apply twf_unfold in Htw as [_ Hal]; rewrite Forall_forall in Hal; exact (Hal _ Hin) | eapply plan_deps_child; eassumption]. }
    match goal with |- exists tr, bind (?G ch) ?k = _ /\ _ => assert (exists subs, G ch = Ok subs /\ kids_complete (lnames L) ch subs) as (subs & Hsubs & Hkc) end.
    { assert (forall r, In r rels -> esrc (true, r) = eid -> In (r_cv r) (cols fd)) as Hfw.
      { intros r Hr E. rewrite Ecf. apply (hc_vars _ _ _ _ _ _ _ H1). unfold esrc in E. cbn [fst snd] in E. subst eid. apply child_idvars. exact Hr. }
      assert (forall r, In r rels -> esrc (false, r) = eid -> In (r_pv r) (cols fd)) as Hbw.
      { intros r Hr E. rewrite Ecf. apply (hc_vars _ _ _ _ _ _ _ H1). unfold esrc in E. cbn [fst snd] in E. subst eid. rewrite (parent_index' es Hes r Hr). eapply index_idvars; exact He. }
      assert (forall r, In r rels -> esrc (false, r) = eid -> In (r_pv r) (cols d1)) as Hbw1 by (intros r Hr E; rewrite <- Ecf; apply Hbw; assumption).
      clear Htw Hpl Hpd Nff Nnf Hids Hcs Hd0 Hd1 Hfd. induction ch as [|[ed s] ch' IHch]; [exists []; split; [reflexivity | constructor]|].
      apply Forall_cons_iff in Hch as [(Hr & Hsrc & Hty) Hch']. apply Forall_cons_iff in IH as [IHs IH']. cbn [fst snd] in Hr, Hsrc, Hty, IHs.
      destruct (IHch IH' Hch') as (rest & Hrest & Hkr); [intros ed0 s0 Hin; apply (Hchp ed0 s0); right; exact Hin|].
      destruct (Hchp ed s (or_introl eq_refl)) as (Hps & Hts & Hds). destruct ed as [fw r]. destruct fw.
      - unfold edst in Hty. cbn [fst snd] in Hr, Hty |- *. unfold column at 1. rewrite check_col_Ok' by (apply Hfw; assumption). cbn [bind].
        destruct (IHs (r_pe r) [] (r_pv r) (map (cell (r_cv r)) (rows fd)) None) as (sub & Hsub & Hsc);
          [exact Hty | exact Hts | exact Hps | exact Hds | apply lvl_nil | reflexivity | exact I | left; apply parent_index'; assumption | left; apply parent_index'; assumption | apply parent_get; assumption|].
        change (get_node edge_eqb None [(true, r)] (trie_new None)) with (@trie_new edge (option df) None). rewrite Hsub. cbn [bind]. rewrite Hrest. cbn [bind]. eexists. split; [reflexivity|].
        constructor; [split; [reflexivity | exact Hsc] | exact Hkr].
      - unfold edst in Hty. cbn [fst snd] in Hr, Hty |- *. pose proof (Hbw r Hr Hsrc) as Hvc. unfold column at 1. rewrite check_col_Ok' by exact Hvc. cbn [bind].
        unfold esrc in Hsrc. cbn [fst snd] in Hsrc. subst eid.
        assert (map (cell (r_pv r)) (rows fd) = map (cell (r_pv r)) (filter q (R (r_pe r)))) as Ev.
        { eapply sees_col; [exact Sfd|]. intros x c _ Hx. eapply sr_raw; [exact Hes | exact Hcn | exact Hov | exact HL | exact He | exact Hx | exact Hvc |].
          eapply key_col_raw; [exact Hes | exact He | left; apply parent_index'; assumption]. }
        destruct (IHs (r_ce r) ((r, rs1) :: L) (r_cv r) (map (cell (r_pv r)) (rows fd)) (Some (r, lnames L, d1))) as (sub & Hsub & Hsc);
          [exact Hty | exact Hts | exact Hps | exact Hds | apply lvl_cons; [exact Hr | exact HL | exact Hi1] | | split; [apply Hbw1; [exact Hr | reflexivity] | exact Hl1] | right; exists r; auto | right | apply child_get; assumption|].
        { cbn [L_Value7.parent_ok]. exists rs1, L. split; [reflexivity|]. split; [reflexivity|]. split; [exact S1|]. split; [rewrite (parent_index' es Hes r Hr); exact Hn1 |]. split; [reflexivity|]. split; [reflexivity|]. intros v Hin'. rewrite Ev in Hin'. apply in_map_iff in Hin' as (m & Em & Hm). exists m. split; [|exact Em]. unfold rs1. destruct full; [apply Hfi; exact Hm | exact Hm]. }
        { rewrite Ev. intros Hin. apply in_map_iff in Hin as (m & Em & Hm). apply filter_In in Hm as [Hm _]. exact (pv_nonnull es T tw incl Hes Hip Hw r m Hr Hm Em). }
        change (get_node edge_eqb None [(false, r)] (trie_new None)) with (@trie_new edge (option df) None). rewrite Hsub. cbn [bind]. rewrite Hrest. cbn [bind]. eexists. split; [reflexivity|].
        constructor; [split; [reflexivity | exact Hsc] | exact Hkr]. }
    rewrite Hsubs. cbn [bind]. cbv zeta. change (merge_precalculated (e_index e) (tvalue (trie_new None)) d1) with d1.
    assert (kids full eid L q ch subs) as Hkids.
    { refine (node_kids es idvars T tw incl nothing fs Hes Hip Hw Hcn Hov by_name ord eid e L full q ch (trie_new None) d1 fd subs He HL _ Hch _ _ S1 Sfd Hsubs).
      - apply Forall_forall. intros [ed s] _. cbn [snd]. intros eid' L' fvar' fvals' pre' parent' tr' A1 A2 A3 A4 A5 A6 A7 A8 A9.
        exact (calc_node_good es idvars T tw incl nothing fs Hes Hip Hiv Hw Hcn Hov Hwt Hpf Hovl by_name ord Hby Hord s eid' L' fvar' fvals' pre' parent' tr' A1 A2 A3 A4 A5 A6 A7 A8 A9).
      - intros ed s Hin. destruct (Hchp ed s Hin) as (P1 & P2 & _). auto.
      - apply Forall_forall. intros [ed s] _. cbn [fst snd]. rewrite get_node_new. apply pre_ok_nothing. }
    destruct (Hpl []) as (Pn1 & Pn2 & _). change (V (TNode (full, ff, nf) ch) []) with ((full, ff, nf) : fnode) in Pn1, Pn2. cbn [nff nnf fst snd] in Pn1, Pn2.
    assert (forall f, calculated f -> (In (funique f) ff -> fpath f = [] -> forall d, In d (fdeps f) -> In (funique (unslice d)) ff) /\
      (In (funique f) nf -> fpath f = [] -> forall d, In d (fdeps f) -> In (funique (unslice d)) (ff ++ nf)) /\ (In (funique f) ff -> ~ In (funique f) nf)) as Hpd0.
    { intros f C. destruct (Hpd [] f C) as (P1 & P2 & P3). change (V (TNode (full, ff, nf) ch) []) with ((full, ff, nf) : fnode) in P1, P2, P3. cbn [nff nnf fst snd app] in P1, P2, P3.
      split; [|split; [|exact P3]]; intros Hf Hp d Hd; [specialize (P1 Hf d Hd) | specialize (P2 Hf d Hd)]; rewrite Hp in *; assumption. }
    (* features that need every row *)
    set (F1 := fun f => F0 f \/ In (funique f) ff).
    assert (exists d3 d4, (if full then calc_features es by_name ord T (lookup true (TNode (None, None) subs)) (e_index e) ff d1 else Ok d1) = Ok d3 /\ has eid (lnames L) F1 d3 /\
      (if full then isin_filter d3 fvar fvals else Ok d3) = Ok d4 /\ cols d4 = cols d3) as (d3 & d4 & Hd3 & H3 & Hd4 & Ec4).
    { destruct full.
      - destruct (features_total es idvars T tw incl fs Hes Hiv Hcn Hwt Hpf Hrn by_name ord Hby Hall Hord eid e (lnames L) F0 ff (lookup true (TNode (None, None) subs)) (e_index e) d1 He Pn1 H1) as (d3 & Hd3 & H3).
        { intros n Hn. destruct (Nff n Hn) as (f & C & E & En). exists f. split; [exact C|]. split; [exact E|]. split; [exact En|]. rewrite En in Hn.
          split; [apply (node_look true true eid e L q ff nf ch subs f He Hkids Hkc Hpl Hpd C E Hn)|]. split; [intros Hi; split; [exact Hi | apply in_app_iff; auto]|]. split; [intros Hi [Hi' _]; contradiction|].
          intros Hp b Hb. right. apply (proj1 (Hpd0 f C) Hn Hp b Hb). }
        exists d3. destruct (isin_total d3 fvar fvals) as (d4 & Hd4 & E4); [apply (hc_vars _ _ _ _ _ _ _ H3); eapply key_idvars; eassumption|]. exists d4. auto.
      - exists d1, d1. split; [reflexivity|]. split; [|split; reflexivity]. eapply has_ext; [|exact H1]. intros f _ _. unfold F1. rewrite (Nfull eq_refl). cbn. tauto. }
    rewrite Hd3. cbn [bind]. rewrite Hd4. cbn [bind].
    (* the others *)
    destruct (features_total es idvars T tw incl fs Hes Hiv Hcn Hwt Hpf Hrn by_name ord Hby Hall Hord eid e (lnames L) F1 nf (lookup false (TNode (None, None) subs)) (e_index e) d4 He Pn2) as (d5 & Hd5 & H5).
    { eapply has_same; [exact Ec4 | exact H3]. }
    { intros n Hn. destruct (Nnf n Hn) as (f & C & E & En & _). exists f. split; [exact C|]. split; [exact E|]. split; [exact En|]. rewrite En in Hn.
      split; [apply (node_look false full eid e L q ff nf ch subs f He Hkids Hkc Hpl Hpd C E Hn)|]. split; [intros Hi; left; split; [exact Hi | apply in_app_iff; auto]|].
      split; [intros Hi [[Hi' _]|Hi']; [contradiction | exact (proj2 (proj2 (Hpd0 f C)) Hi' Hn)]|].
      intros Hp b Hb. pose proof (proj1 (proj2 (Hpd0 f C)) Hn Hp b Hb) as Hx. apply in_app_iff in Hx as [Hx|Hx]; [left; right; exact Hx | right; exact Hx]. }
    rewrite Hd5. cbn [bind]. eexists. split; [reflexivity|]. apply complete_unfold. split; [|split; [|exact Hkc]].
    - intros ->. exists d3, F1. split; [reflexivity|]. split; [exact H3|]. intros f Hf. right. exact Hf.
    - exists d5. eexists. split; [reflexivity|]. split; [exact H5|]. intros f Hf. apply in_app_iff in Hf as [Hf|Hf]; [left; right; exact Hf | right; exact Hf].
  Qed.
End Total3.
