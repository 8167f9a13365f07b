(** Frames of a calculated tree are meaningful, and lookups find what features need. *)
From Verif Require Import Base BaseFacts M_Schema S_Schema M_Trie M_Table M_Query S_Query L_Query S_View L_View
  M_Feature M_FeatureSet M_Calc S_Calc S_Group S_Plan S_Sem S_Approx S_Value L_Trie L_Frame L_FeatureSet L_Plan L_Group P_Select L_Schema
  L_Value1 L_Value2 L_Value3 L_Value4 L_Value5.

Lemma dget_Forall2 {V W : Type} (P : edge -> V -> W -> Prop) (l : list (edge * V)) (l' : list (edge * W)) :
  Forall2 (fun a b => fst a = fst b /\ P (fst a) (snd a) (snd b)) l l' ->
  forall ed w, dget edge_eqb ed l' = Some w -> exists v, dget edge_eqb ed l = Some v /\ P ed v w.
Proof.
  induction 1 as [|[a v] [b w0] l l' [E HP] H IH]; intros ed w Hw; [discriminate|]. cbn [fst snd] in *. subst b. cbn [dget] in *.
  destruct (edge_eqb_spec ed a) as [->|Hn]; [|apply IH; exact Hw]. injection Hw as ->. eauto.
Qed.

Lemma V_child (v : fnode) (ch : list (edge * ftrie)) ed s q1 : dget edge_eqb ed ch = Some s -> V (TNode v ch) (ed :: q1) = V s q1.
Proof.
  intros Hs. unfold V. change (tvalue (match @dget edge ftrie edge_eqb ed ch with Some s0 => gn q1 s0 | None => gn q1 (trie_new fnode0) end) = tvalue (gn q1 s)).
  rewrite Hs. reflexivity.
Qed.

Lemma lookup_child b v (subs : list (edge * dtrie)) ed p base : lookup b (TNode v subs) (ed :: p) = Ok base ->
  exists sub, dget edge_eqb ed subs = Some sub /\ lookup b sub p = Ok base.
Proof.
  unfold lookup. change (get_node edge_eqb (None, None) (ed :: p) (TNode v subs)) with
    (match @dget edge dtrie edge_eqb ed subs with Some s0 => get_node edge_eqb (None, None) p s0 | None => get_node edge_eqb (None, None) p (@trie_new edge (option df * option df) (None, None)) end).
  destruct (dget edge_eqb ed subs) as [sub|]; [eauto|]. rewrite get_node_new. destruct b; discriminate.
Qed.

Section Value6.
  Variables (es : entityset) (T : Z) (tw : option window) (incl : bool) (given : feat -> option (row -> list val)) (fs : list feat).
  Notation rels := (es_rels es).
  Notation fname := (fname rels).
  Notation fnames := (fnames rels).
  Notation funique := (funique rels).
  Notation R := (rows_at es T tw incl).
  Notation sem := (sem_with es T tw incl given).
  Notation owner := (owner es T tw incl).
  Notation calculated := (calculated fs).
  Notation sees := (sees es T tw incl given fs).
  Notation sees_row := (sees_row es T tw incl given fs).
  Notation lvl_ok := (lvl_ok es T tw incl).
  Notation there := (there es T tw incl given).
  Notation lnames := (lnames es).
  Notation lvals := (lvals es).

  Hypothesis Hes : good_es es.
  Hypothesis Hip : index_present es.
  Hypothesis Hw : win_time tw.
  Hypothesis Hcn : clear_names es fs.
  Hypothesis Hov : forall f g, given f = Some g -> is_aggregation f.
  Hypothesis Hwt : forall f, needed fs f -> wt rels f.
  Hypothesis Hpf : plain_features rels fs.
  Hypothesis Hovl : forall f g r, needed fs f -> given f = Some g -> List.length (g r) = fnout f.

  Lemma pv_NoDup r : In r rels -> NoDup (map (cell (r_pv r)) (R (r_pe r))).
  Proof. intros Hr. rewrite (parent_index' es Hes r Hr). apply R_NoDup; assumption. Qed.
  Lemma pv_nonnull r m : In r rels -> In m (R (r_pe r)) -> cell (r_pv r) m <> VNull.
  Proof. intros Hr. rewrite (parent_index' es Hes r Hr). apply R_nonnull; assumption. Qed.

  (** ** owners, from the far end of the path *)
  Lemma owner_snoc a π r c : backward_chain rels a (π ++ [r]) (r_ce r) -> π <> [] ->
    owner (π ++ [r]) c = match row_with (r_pv r) (cell (r_cv r) c) (R (r_pe r)) with Some m => owner π m | None => VNull end.
  Proof.
    revert a. induction π as [|r1 π IH]; intros a Hc Hne; [congruence|]. clear Hne. cbn [app] in Hc. apply chain_cons_inv in Hc as (_ & Hr1 & Hc).
    destruct π as [|r2 π].
    - cbn [app] in *. apply chain_cons_inv in Hc as (E & _ & _). cbn [S_Sem.owner]. rewrite E. reflexivity.
    - assert (owner ((r2 :: π) ++ [r]) c = match row_with (r_pv r) (cell (r_cv r) c) (R (r_pe r)) with Some m => owner (r2 :: π) m | None => VNull end) as E.
      { eapply IH; [exact Hc | discriminate]. }
      cbn [app] in *. apply chain_cons_inv in Hc as (E2 & Hr2 & _).
      transitivity (match row_with (r_pv r2) (owner (r2 :: π ++ [r]) c) (R (r_ce r1)) with Some m => cell (r_cv r1) m | None => VNull end); [reflexivity|].
      rewrite E. destruct (row_with (r_pv r) _ _) as [m|]; [reflexivity|].
      destruct (row_with (r_pv r2) VNull (R (r_ce r1))) as [m|] eqn:Em; [|reflexivity]. exfalso. apply row_with_In in Em as [Hm Em].
      rewrite E2 in Hm. exact (pv_nonnull r2 m Hr2 Hm Em).
  Qed.

  Lemma owner_first r r' π c v : owner (r :: r' :: π) c = v -> v <> VNull ->
    exists m, In m (R (r_ce r)) /\ cell (r_cv r) m = v /\ cell (r_pv r') m = owner (r' :: π) c.
  Proof.
    intros H Hv. change (match row_with (r_pv r') (owner (r' :: π) c) (R (r_ce r)) with Some m => cell (r_cv r) m | None => VNull end = v) in H.
    destruct (row_with _ _ _) as [m|] eqn:E; [|congruence]. apply row_with_In in E as [Hm E]. eauto.
  Qed.

  (** ** the levels below a node, along a backward path *)
  Inductive lev : list relationship -> level -> string -> (row -> bool) -> Prop :=
  | lev_one r P q : In r rels -> lev [r] [(r, P)] (r_ce r) q
  | lev_snoc π D r P q q' : lev π D (r_pe r) q -> In r rels ->
      (forall c, In c (R (r_ce r)) -> q' c = true ->
         row_with (r_pv r) (cell (r_cv r) c) P = row_with (r_pv r) (cell (r_cv r) c) (R (r_pe r)) /\
         forall m, row_with (r_pv r) (cell (r_cv r) c) (R (r_pe r)) = Some m -> q m = true) ->
      lev (π ++ [r]) ((r, P) :: D) (r_ce r) q'.

  Lemma lev_chain π D ce q : lev π D ce q -> π <> [] /\ exists a, backward_chain rels a π ce.
  Proof.
    induction 1 as [r P q Hr|π D r P q q' H [IH1 (a & IH2)] Hr Hq].
    - split; [discriminate|]. exists (r_pe r). apply chain_cons_inv. split; [reflexivity|]. split; [exact Hr | apply chain_nil_inv; reflexivity].
    - split; [destruct π; discriminate|]. exists a. apply chain_app. exists (r_pe r). split; [exact IH2|]. apply chain_cons_inv. split; [reflexivity|]. split; [exact Hr | apply chain_nil_inv; reflexivity].
  Qed.

  Lemma lnames_app D L : exists l, lnames (D ++ L) = l ++ skipn (List.length l) (lnames (D ++ L)) /\ List.length l = List.length (lnames L).
  Proof.
    exists (firstn (List.length (lnames L)) (lnames (D ++ L))). assert (List.length (lnames L) <= List.length (lnames (D ++ L))) as Hl.
    { induction D as [|[r P] D IH]; [cbn [app]; lia|]. cbn [app L_Value1.lnames]. rewrite app_length, map_length. lia. }
    rewrite firstn_length_le by exact Hl. split; [symmetry; apply firstn_skipn | reflexivity].
  Qed.

  Lemma rv_id_snoc π r : π <> [] -> relationship_variable_id (π ++ [r]) = (r_pe r ++ "." ++ relationship_variable_id π)%string.
  Proof. intros H. destruct π as [|r0 π]; [congruence|]. cbn [app relationship_variable_id]. rewrite fold_left_app. reflexivity. Qed.

  Lemma lev_link L π D ce q : lev π D ce q -> (forall r, In r (tl π) -> parent_name rels r = r_pe r) ->
    nth_error (lnames (D ++ L)) (List.length (lnames L)) = Some (relationship_variable_id π) /\
    forall c, In c (R ce) -> q c = true -> nth_error (lvals (D ++ L) c) (List.length (lnames L)) = Some (owner π c).
  Proof.
    induction 1 as [r P q Hr|π D r P q q' H IH Hr Hq]; intros Htl.
    - cbn [app L_Value1.lnames L_Value1.lvals]. split.
      + rewrite nth_error_app2 by (rewrite map_length; lia). rewrite map_length, Nat.sub_diag. reflexivity.
      + intros c _ _. assert (List.length (match row_with (r_pv r) (cell (r_cv r) c) P with Some m => lvals L m | None => map (fun _ => VNull) (lnames L) end) = List.length (lnames L)) as El.
        { destruct (row_with _ _ _); [apply lvals_length | apply map_length]. }
        rewrite nth_error_app2 by lia. rewrite El, Nat.sub_diag. reflexivity.
    - destruct (lev_chain _ _ _ _ H) as [Hne (a & Hch)].
      destruct IH as [I1 I2]. { intros r0 Hr0. apply Htl. destruct π; [congruence|]. cbn [app tl] in *. apply in_app_iff. auto. }
      assert (parent_name rels r = r_pe r) as Epn. { apply Htl. destruct π; [congruence|]. cbn [app tl]. apply in_app_iff. right; left; reflexivity. }
      pose proof (nth_error_len _ _ _ I1) as Hlen.
      cbn [app L_Value1.lnames L_Value1.lvals]. split.
      + rewrite nth_error_app1 by (rewrite map_length; exact Hlen). rewrite nth_error_map, I1. cbn [option_map]. rewrite Epn, rv_id_snoc by exact Hne. reflexivity.
      + intros c Hc Hqc. destruct (Hq c Hc Hqc) as [Ep Hm]. rewrite Ep.
        rewrite (owner_snoc a π r c); [|apply chain_app; exists (r_pe r); split; [exact Hch|]; apply chain_cons_inv; split; [reflexivity|]; split; [exact Hr | apply chain_nil_inv; reflexivity] | exact Hne].
        destruct (row_with (r_pv r) (cell (r_cv r) c) (R (r_pe r))) as [m|] eqn:Em.
        * rewrite nth_error_app1 by (rewrite lvals_length; exact Hlen). apply I2; [apply row_with_In in Em; apply Em | apply Hm; reflexivity].
        * rewrite nth_error_app1 by (rewrite map_length; exact Hlen). rewrite nth_error_map. destruct (nth_error_ex _ _ Hlen) as (n & ->). reflexivity.
  Qed.

  (** ** meaningful trees *)
  Definition next (ed : edge) (rs : list row) : row -> bool :=
    if fst ed then inb (r_pv (snd ed)) (map (cell (r_cv (snd ed))) rs) else inb (r_cv (snd ed)) (map (cell (r_pv (snd ed))) rs).

  Fixpoint good (eid : string) (L : level) (q : row -> bool) (ft : ftrie) (tr : dtrie) {struct ft} : Prop :=
    match ft, tr with
    | TNode (full, ff, nf) ch, TNode (o3, o5) subs =>
      lvl_ok eid L /\
      (forall d3, o3 = Some d3 -> sees eid L d3 (R eid)) /\
      (exists d5, o5 = Some d5 /\ sees eid L d5 (filter q (R eid)) /\
         forall f, calculated f -> In (funique f) (ff ++ nf) -> there d5 (filter q (R eid)) f) /\
      (fix go (ch : list (edge * ftrie)) (subs : list (edge * dtrie)) : Prop :=
         match ch, subs with
         | [], [] => True
         | (ed, s) :: ch', (ed', sub) :: subs' =>
           (ed = ed' /\ In (snd ed) rels /\ esrc ed = eid /\
            good (edst ed) (if fst ed then [] else (snd ed, if full then R eid else filter q (R eid)) :: L) (next ed (filter q (R eid))) s sub) /\ go ch' subs'
         | _, _ => False
         end) ch subs
    end.

  Definition kid (full : bool) (eid : string) (L : level) (q : row -> bool) (ed : edge) (s : ftrie) (sub : dtrie) : Prop :=
    In (snd ed) rels /\ esrc ed = eid /\
    good (edst ed) (if fst ed then [] else (snd ed, if full then R eid else filter q (R eid)) :: L) (next ed (filter q (R eid))) s sub.
  Definition kids (full : bool) (eid : string) (L : level) (q : row -> bool) (ch : list (edge * ftrie)) (subs : list (edge * dtrie)) : Prop :=
    Forall2 (fun a b => fst a = fst b /\ kid full eid L q (fst a) (snd a) (snd b)) ch subs.

  Lemma good_unfold eid L q full ff nf ch o3 o5 subs : good eid L q (TNode (full, ff, nf) ch) (TNode (o3, o5) subs) <->
    lvl_ok eid L /\
    (forall d3, o3 = Some d3 -> sees eid L d3 (R eid)) /\
    (exists d5, o5 = Some d5 /\ sees eid L d5 (filter q (R eid)) /\
       forall f, calculated f -> In (funique f) (ff ++ nf) -> there d5 (filter q (R eid)) f) /\ kids full eid L q ch subs.
  Proof.
    cbn [good]. unfold kids. split; intros (H1 & H2 & H3 & H4); (split; [exact H1|]; split; [exact H2|]; split; [exact H3|]); clear H1 H2 H3.
    - revert subs H4. induction ch as [|[ed s] ch IH]; intros [|[ed' sub] subs] H; try contradiction; constructor.
      + cbn [fst snd]. destruct H as [(H1 & H2 & H3 & H4) _]. split; [exact H1|]. split; [exact H2|]. split; [exact H3 | exact H4].
      + apply IH. apply H.
    - revert subs H4. induction ch as [|[ed s] ch IH]; intros subs H; inversion H as [|a [ed' sub] l l' [Hab (K1 & K2 & K3)] Hl]; subst; [exact I|]. cbn [fst snd] in *. split; [|apply IH; exact Hl].
      split; [exact Hab|]. split; [exact K1|]. split; [reflexivity | exact K3].
  Qed.

  Lemma filter_true {A} (l : list A) : filter (fun _ => true) l = l.
  Proof. induction l as [|a l IH]; cbn; [reflexivity | f_equal; exact IH]. Qed.

  Lemma next_back_In eid q r c : In r rels -> r_pe r = eid -> next (false, r) (filter q (R eid)) c = true ->
    forall m, In m (R eid) -> cell (r_pv r) m = cell (r_cv r) c -> q m = true.
  Proof.
    intros Hr <- Hn m Hm E. unfold next in Hn. cbn [fst snd] in Hn. unfold inb in Hn. apply andb_true_iff in Hn as [Hn _]. apply mem_val_In in Hn.
    apply in_map_iff in Hn as (m' & E' & Hm'). apply filter_In in Hm' as [Hm' Hq]. rewrite <- E in E'.
    pose proof (row_with_unique (r_pv r) _ m (pv_NoDup r Hr) Hm) as R1. pose proof (row_with_unique (r_pv r) _ m' (pv_NoDup r Hr) Hm') as R2. rewrite E' in R2. congruence.
  Qed.

  Lemma next_back eid q r c x : In r rels -> r_pe r = eid -> In x (filter q (R eid)) -> cell (r_cv r) c = cell (index_of es eid) x ->
    next (false, r) (filter q (R eid)) c = true.
  Proof.
    intros Hr <- Hx E. unfold next. cbn [fst snd]. unfold inb. rewrite E. rewrite <- (parent_index' es Hes r Hr). apply andb_true_iff. split.
    - apply mem_val_In. apply in_map. exact Hx.
    - apply filter_In in Hx as [Hx _]. pose proof (pv_nonnull r x Hr Hx) as Hn. destruct (cell (r_pv r) x); [congruence | reflexivity..].
  Qed.

  (** a lookup down a backward path *)
  Lemma good_back (b : bool) (L : level) : forall (π2 : list relationship) eid (D : level) (q : row -> bool) ft tr base π1 ce,
    good eid (D ++ L) q ft tr -> lev π1 D eid (if b then fun _ : row => true else q) ->
    lookup b tr (map (fun r : relationship => (false, r)) π2) = Ok base ->
    (b = true -> forall q1 q2, map (fun r : relationship => (false, r)) π2 = q1 ++ q2 -> nfull (V ft q1) = true) ->
    backward_chain rels eid π2 ce ->
    exists D' q', lev (π1 ++ π2) D' ce q' /\ lvl_ok ce (D' ++ L) /\ sees ce (D' ++ L) base (filter q' (R ce)) /\
      forall c, In c (R ce) -> (b = true \/ match π2 with [] => q c = true | _ => exists x, In x (filter q (R eid)) /\ owner π2 c = cell (index_of es eid) x end) -> q' c = true.
  Proof.
    induction π2 as [|r π2 IH]; intros eid D q [[[full ff] nf] ch] [[o3 o5] subs] base π1 ce Hg Hlev Hl Hfull Hch;
      apply good_unfold in Hg as (HL & H3 & (d5 & H5 & H5s & _) & Hk).
    - apply chain_nil_inv in Hch. subst ce. rewrite app_nil_r. unfold lookup in Hl. cbn [map get_node tvalue] in Hl. exists D, (if b then fun _ : row => true else q).
      split; [exact Hlev|]. split; [exact HL|]. destruct b.
      + destruct o3 as [d3|]; [|discriminate]. injection Hl as <-. split; [rewrite filter_true; apply H3; reflexivity | auto].
      + subst o5. injection Hl as <-. split; [exact H5s|]. intros c _ [H|H]; [discriminate | exact H].
    - apply chain_cons_inv in Hch as (-> & Hr & Hch). unfold lookup in Hl. cbn [map get_node children] in Hl.
      destruct (dget edge_eqb (false, r) subs) as [sub|] eqn:Es.
      2:{ exfalso. rewrite get_node_new in Hl. destruct b; discriminate. }
      destruct (dget_Forall2 (kid full (r_pe r) (D ++ L) q) _ _ Hk (false, r) sub Es) as (s & Hs & _ & _ & Hg). cbn [fst snd edst] in Hg. unfold edst in Hg. cbn [fst snd] in Hg.
      set (P := if full then R (r_pe r) else filter q (R (r_pe r))) in *.
      assert (forall q1, V (TNode (full, ff, nf) ch) ((false, r) :: q1) = V s q1) as HV. { intros q1. apply V_child. exact Hs. }
      assert (b = true -> full = true) as Hbf. { intros Hb. exact (Hfull Hb [] _ eq_refl). }
      destruct (IH (r_ce r) ((r, P) :: D) (next (false, r) (filter q (R (r_pe r)))) s sub base (π1 ++ [r]) ce) as (D' & q' & L1 & L2 & L3 & L4).
      + exact Hg.
      + apply lev_snoc with (q := if b then fun _ : row => true else q); [exact Hlev | exact Hr|]. intros c Hc Hqc. split.
        * unfold P. destruct full eqn:Ef; [reflexivity|]. destruct b; [specialize (Hbf eq_refl); discriminate|].
          apply row_with_part; [apply pv_NoDup; exact Hr|]. intros m Hm E. exact (next_back_In (r_pe r) q r c Hr eq_refl Hqc m Hm E).
        * intros m Em. destruct b; [reflexivity|]. apply row_with_In in Em as [Hm Em]. exact (next_back_In (r_pe r) q r c Hr eq_refl Hqc m Hm Em).
      + exact Hl.
      + intros Hb q1 q2 E. rewrite <- HV. apply (Hfull Hb ((false, r) :: q1) q2). cbn [map app]. f_equal. exact E.
      + exact Hch.
      + rewrite <- app_assoc in L1. exists D', q'. split; [exact L1|]. split; [exact L2|]. split; [exact L3|].
        intros c Hc [Hb|(x & Hx & Eo)]; [apply L4; auto|]. apply L4; [exact Hc|]. right.
        assert (cell (index_of es (r_pe r)) x <> VNull) as Hnn by (apply (R_nonnull es T tw incl Hes Hip Hw); apply filter_In in Hx; apply Hx).
        destruct π2 as [|r' π2].
        * apply chain_nil_inv in Hch. subst ce. exact (next_back (r_pe r) q r c x Hr eq_refl Hx Eo).
        * destruct (owner_first r r' π2 c _ Eo Hnn) as (m & Hm & E1 & E2). exists m. split.
          -- apply filter_In. split; [exact Hm|]. exact (next_back (r_pe r) q r m x Hr eq_refl Hx E1).
          -- apply chain_cons_inv in Hch as (E3 & Hr' & _). rewrite E3, <- (parent_index' es Hes r' Hr'). symmetry. exact E2.
  Qed.

  (** the same from the node of the feature itself *)
  Lemma kids_back b full eid L q ff nf ch subs v path base ce :
    kids full eid L q ch subs -> path <> [] -> lookup b (TNode v subs) (map (fun r : relationship => (false, r)) path) = Ok base ->
    (b = true -> full = true /\ forall q1 q2, map (fun r : relationship => (false, r)) path = q1 ++ q2 -> nfull (V (TNode (full, ff, nf) ch) q1) = true) ->
    backward_chain rels eid path ce ->
    exists D q', lev path D ce q' /\ lvl_ok ce (D ++ L) /\ sees ce (D ++ L) base (filter q' (R ce)) /\
      forall c, In c (R ce) -> (b = true \/ exists x, In x (filter q (R eid)) /\ owner path c = cell (index_of es eid) x) -> q' c = true.
  Proof.
    intros Hk Hne Hl Hfull Hch. destruct path as [|r π2]; [congruence|].
    apply chain_cons_inv in Hch as (-> & Hr & Hch). cbn [map] in Hl. apply lookup_child in Hl as (sub & Es & Hl).
    destruct (dget_Forall2 (kid full (r_pe r) L q) _ _ Hk (false, r) sub Es) as (s & Hs & _ & _ & Hg). unfold edst in Hg. cbn [fst snd] in Hg.
    set (P := if full then R (r_pe r) else filter q (R (r_pe r))) in *.
    assert (forall q1, V (TNode (full, ff, nf) ch) ((false, r) :: q1) = V s q1) as HV. { intros q1. apply V_child. exact Hs. }
    destruct (good_back b L π2 (r_ce r) [(r, P)] (next (false, r) (filter q (R (r_pe r)))) s sub base [r] ce) as (D' & q' & L1 & L2 & L3 & L4).
    - exact Hg.
    - apply lev_one. exact Hr.
    - exact Hl.
    - intros Hb q1 q2 E. rewrite <- HV. apply (proj2 (Hfull Hb) ((false, r) :: q1) q2). cbn [map app]. f_equal. exact E.
    - exact Hch.
    - exists D', q'. split; [exact L1|]. split; [exact L2|]. split; [exact L3|].
      intros c Hc [Hb|(x & Hx & Eo)]; [apply L4; auto|]. apply L4; [exact Hc|]. right.
      assert (cell (index_of es (r_pe r)) x <> VNull) as Hnn by (apply (R_nonnull es T tw incl Hes Hip Hw); apply filter_In in Hx; apply Hx).
      destruct π2 as [|r' π2].
      + apply chain_nil_inv in Hch. subst ce. exact (next_back (r_pe r) q r c x Hr eq_refl Hx Eo).
      + destruct (owner_first r r' π2 c _ Eo Hnn) as (m & Hm & E1 & E2). exists m. split.
        * apply filter_In. split; [exact Hm|]. exact (next_back (r_pe r) q r m x Hr eq_refl Hx E1).
        * apply chain_cons_inv in Hch as (E3 & Hr' & _). rewrite E3, <- (parent_index' es Hes r' Hr'). symmetry. exact E2.
  Qed.

  (** a lookup at a parent *)
  Lemma kids_forward b full eid L q ch subs v r p :
    kids full eid L q ch subs -> lookup b (TNode v subs) [(true, r)] = Ok p ->
    exists q', sees (r_pe r) [] p (filter q' (R (r_pe r))) /\
      forall m, In m (R (r_pe r)) -> (b = true \/ exists x, In x (filter q (R eid)) /\ cell (r_pv r) m = cell (r_cv r) x) -> q' m = true.
  Proof.
    intros Hk Hl. apply lookup_child in Hl as (sub & Es & Hl). unfold lookup in Hl. cbn [get_node] in Hl.
    destruct (dget_Forall2 (kid full eid L q) _ _ Hk (true, r) sub Es) as ([[[full' ff] nf] ch'] & _ & Hr & _ & Hg). cbn [fst snd] in Hr, Hg. unfold edst in Hg. cbn [fst snd] in Hg.
    destruct sub as [[o3 o5] subs']. apply good_unfold in Hg as (_ & H3 & (d5 & -> & H5 & _) & _). cbn [tvalue] in Hl. destruct b.
    - destruct o3 as [d3|]; [|discriminate]. injection Hl as <-. exists (fun _ => true). rewrite filter_true. auto.
    - injection Hl as <-. exists (next (true, r) (filter q (R eid))). split; [exact H5|]. intros m Hm [H|(x & Hx & E)]; [discriminate|].
      unfold next. cbn [fst snd]. unfold inb. apply andb_true_iff. split.
      + apply mem_val_In. rewrite E. apply in_map. exact Hx.
      + pose proof (pv_nonnull r m Hr Hm) as Hn. destruct (cell (r_pv r) m); [congruence | reflexivity..].
  Qed.
End Value6.
