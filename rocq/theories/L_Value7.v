(** A calculated tree is meaningful. *)
From Verif Require Import Base BaseFacts M_Schema S_Schema M_Trie M_Table M_Query S_Query L_Query S_View L_View
  M_Feature M_FeatureSet M_Calc S_Calc S_Group S_Plan S_Sem S_Approx S_Value L_Trie L_Frame L_FeatureSet L_Plan L_Group P_Select L_Schema
  L_Value1 L_Value2 L_Value3 L_Value4 L_Value5 L_Value6.

Section Value7.
  Variables (es : entityset) (idvars : string -> list string) (T : Z) (tw : option window) (incl : bool) (given : feat -> option (row -> list val)) (fs : list feat).
  Notation rels := (es_rels es).
  Notation fname := (fname rels).
  Notation fnames := (fnames rels).
  Notation funique := (funique rels).
  Notation R := (rows_at es T tw incl).
  Notation sem := (sem_with es T tw incl given).
  Notation owner := (owner es T tw incl).
  Notation calculated := (calculated fs).
  Notation sees := (sees es T tw incl given fs).
  Notation sees_row := (sees_row es T tw incl given fs).
  Notation means := (means es T tw incl given fs).
  Notation lvl_ok := (lvl_ok es T tw incl).
  Notation there := (there es T tw incl given).
  Notation lnames := (lnames es).
  Notation lvals := (lvals es).
  Notation good := (good es T tw incl given fs).
  Notation kids := (kids es T tw incl given fs).
  Notation look_ok := (look_ok es T tw incl given fs).

  Hypothesis Hes : good_es es.
  Hypothesis Hip : index_present es.
  Hypothesis Hiv : good_idvars es idvars.
  Hypothesis Hw : win_time tw.
  Hypothesis Hcn : clear_names es fs.
  Hypothesis Hov : forall f g, given f = Some g -> is_aggregation f.
  Hypothesis Hwt : forall f, needed fs f -> wt rels f.
  Hypothesis Hpf : plain_features rels fs.
  Hypothesis Hovl : forall f g r, needed fs f -> given f = Some g -> List.length (g r) = fnout f.

  Variables (by_name : list (string * feat)) (ord : list string -> list string).
  Hypothesis Hby : forall n f, dget String.eqb n by_name = Some f -> needed fs f /\ funique f = n.
  Hypothesis Hord : forall l, Permutation (ord l) l.

  (** ** the rows a node starts from *)
  Lemma key_col_raw eid e var : es_get es eid = Ok e -> key_col es eid var -> In var (cols (e_df e)).
  Proof.
    intros He [->|(r & Hr & <- & ->)].
    - rewrite (index_of_eq es eid e He). destruct (ent_good es Hes eid e He) as ((_ & Hi & _) & _). exact Hi.
    - apply (proj1 (child_link es Hes r e Hr He)).
  Qed.

  Lemma start_sees eid e L (full : bool) fvar fvals names cs d0 : es_get es eid = Ok e -> lvl_ok eid L -> key_col es eid fvar ->
    (forall r, In r (if full then R eid else filter (inb fvar fvals) (R eid)) -> fits es T tw incl fs L r) ->
    necessary_columns idvars by_name eid names = Ok cs ->
    query_by_values es eid (if full then @None (list val) else Some fvals) (if full then @None string else Some fvar) (Some cs) (Some T) tw incl = Ok d0 ->
    sees eid L d0 (if full then R eid else filter (inb fvar fvals) (R eid)) /\ List.incl (cols d0) (cols (e_df e)).
  Proof.
    intros He HL Hk Hfit Hn Hq. set (rs1 := if full then R eid else filter (inb fvar fvals) (R eid)).
    assert (d0 = mkDf cs (map (proj cs) rs1) /\ List.incl cs (cols (e_df e))) as [-> Hcs].
    { unfold rs1. destruct full; [eapply query_all | eapply query_some]; eassumption. }
    split; [|exact Hcs]. split.
    - cbn [cols]. unfold necessary_columns in Hn. apply bind_Ok in Hn as (fc & _ & Hn). injection Hn as <-.
      apply (dedup_In String.eqb String.eqb_spec). split; [|intros []]. apply in_app_iff. left. rewrite (index_of_eq es eid e He).
      destruct (es_get_id es eid e He) as [Hid Hin]. rewrite <- Hid. apply (proj1 (proj2 (Hiv e Hin))).
    - cbn [rows cols]. apply Forall2_map_l. apply Forall2_refl'. intros r Hr. split; [apply Hfit; exact Hr|]. split.
      + intros c Hc. assert (cell c (proj cs r) = cell c r) as -> by (apply cell_proj; exact Hc). eapply mn_raw; [exact He | apply Hcs; exact Hc].
      + intros c Hc. apply cell_proj_out. exact Hc.
  Qed.

  Lemma ancestor_sees eid e r P L0 pdf d0 d new rs1 : es_get es eid = Ok e -> lvl_ok eid ((r, P) :: L0) -> In r rels -> r_ce r = eid ->
    sees eid ((r, P) :: L0) d0 rs1 -> List.incl (cols d0) (cols (e_df e)) ->
    sees (r_pe r) L0 pdf P -> lvl_ok (r_pe r) L0 -> NoDup (map (cell (r_pv r)) P) ->
    add_ancestor es d0 pdf (lnames L0) r = Ok (d, new) ->
    sees eid ((r, P) :: L0) d rs1 /\ new = map (fun v => (parent_name rels r ++ "." ++ v)%string) (lnames L0).
  Proof.
    intros He HL Hr Hre Hs Hraw Hp HL0 Hnd H. unfold add_ancestor in H. apply bind_Ok in H as (us & Hus & H). apply bind_Ok in H as (u & Hu & H). injection H as <- <-.
    split; [|reflexivity]. set (new := map (fun v => (parent_name rels r ++ "." ++ v)%string) (lnames L0)).
    apply mapM_check_Ok in Hus. apply check_col_Ok in Hu.
    destruct (parent_get es Hes r Hr) as (ep & Hep).
    pose proof (sees_index es T tw incl given fs Hes Hcn Hov (r_pe r) ep L0 pdf P HL0 Hep Hp) as Fi. rewrite <- (parent_index es Hes r ep Hr Hep) in Fi.
    assert (NoDup (map fst (map (fun pr => (cell (r_pv r) pr, pr)) (rows pdf)))) as Hndp.
    { rewrite map_map. change (NoDup (map (cell (r_pv r)) (rows pdf))). rewrite (Forall2_map_eq _ _ _ _ Fi). exact Hnd. }
    rewrite (left_merge_unique _ _ _ _ Hndp).
    assert (map fst (combine new (lnames L0)) = new) as Efst.
    { unfold new. clear. induction (lnames L0) as [|x l IH]; [reflexivity|]. cbn [map combine fst]. f_equal. exact IH. }
    assert (forall i n, nth_error new i = Some n -> exists v, nth_error (lnames L0) i = Some v /\ n = (parent_name rels r ++ "." ++ v)%string) as Hnth.
    { intros i n Hi. unfold new in Hi. apply nth_error_map_Some in Hi. exact Hi. }
    assert (forall i n, nth_error new i = Some n -> nth_error (lnames ((r, P) :: L0)) i = Some n) as Hlv.
    { intros i n Hi. cbn [L_Value1.lnames]. fold new. rewrite nth_error_app1; [exact Hi | eapply nth_error_len; exact Hi]. }
    assert (NoDup new) as Hnew.
    { apply NoDup_nth_error. intros i j Hi E. destruct (nth_error_ex _ _ Hi) as (n & Hn). rewrite Hn in E. symmetry in E.
      exact (lnames_inj es T tw incl fs Hes Hcn eid _ HL i j n (Hlv i n Hn) (Hlv j n E)). }
    split; [cbn [cols]; apply in_app_iff; left; apply Hs|]. cbn [rows cols]. apply Forall2_map_l. destruct Hs as [_ Hs]. eapply Forall2_impl; [|exact Hs].
    intros x c _ Hc Hx. apply (sees_row_step es T tw incl given fs eid ((r, P) :: L0) (cols d0) (cols d0 ++ new) new x _ c Hx).
    - intros n. apply in_app_iff.
    - intros n Hn. apply merge_row_other. change (~ In n (map fst (combine new (lnames L0)))). rewrite Efst. exact Hn.
    - intros n Hn. apply In_nth_error in Hn as (i & Hi). destruct (Hnth i n Hi) as (v & Hv & En).
      rewrite (merge_row_new _ _ _ x n v); [|change (NoDup (map fst (combine new (lnames L0)))); rewrite Efst; exact Hnew | eapply combine_In_nth; eassumption].
      assert (cell (r_cv r) x = cell (r_cv r) c) as Ecv.
      { eapply sr_raw; [exact Hes | exact Hcn | exact Hov | exact HL | exact He | exact Hx | exact Hu | apply Hraw; exact Hu]. }
      apply mn_link with (i := i); [apply Hlv; exact Hi|]. cbn [L_Value1.lvals].
      assert (List.length (match row_with (r_pv r) (cell (r_cv r) c) P with Some m => lvals L0 m | None => map (fun _ => VNull) (lnames L0) end) = List.length (lnames L0)) as El.
      { destruct (row_with _ _ _); [apply lvals_length | apply map_length]. }
      rewrite nth_error_app1 by (rewrite El; eapply nth_error_len; exact Hv).
      rewrite Ecv. destruct Hp as [_ Hp]. assert (In v (cols pdf)) as Hvc by (apply Hus; right; eapply nth_error_In; exact Hv).
      clear -Hp Fi Hv Hvc HL0 Hes Hcn Hov. revert Hp Fi. generalize (rows pdf) as prs. unfold row_with. induction P as [|m P IH]; intros prs H1 H2; inversion H1 as [|pr m' l l' Hpm Hl]; subst; cbn [find map].
      + rewrite nth_error_map, Hv. reflexivity.
      + cbn [fst]. inversion H2 as [|a1 b1 l1 l1' E1 Hl1]; subst. rewrite E1. destruct (val_eqb (cell (r_pv r) m) (cell (r_cv r) c)).
        * cbn [snd]. destruct (nth_error_ex (lvals L0 m) i) as (w & Hw'); [rewrite lvals_length; eapply nth_error_len; exact Hv|].
          rewrite Hw'. f_equal. symmetry. eapply sr_cell; [exact Hes | exact Hcn | exact Hov | exact HL0 | exact Hpm | exact Hvc | eapply mn_link; eassumption].
        * apply IH; assumption.
  Qed.

  (** what a plan guarantees at every node *)
  Definition plan_ok (ft : ftrie) : Prop :=
    forall p, NoDup (nff (V ft p)) /\ NoDup (nnf (V ft p)) /\
      (forall f, calculated f -> In (funique f) (nff (V ft p)) -> forall q r, fpath f = q ++ r -> nfull (V ft (p ++ q)) = true) /\
      (forall f, calculated f -> In (funique f) (nff (V ft p) ++ nnf (V ft p)) -> given f = None) /\
      (nfull (V ft p) = true -> exists g, calculated g /\ uses_full g = true).

  Lemma plan_ok_child v ch ed s : twf (TNode v ch) -> plan_ok (TNode v ch) -> In (ed, s) ch -> plan_ok s.
  Proof.
    intros Ht Hp Hin p. apply twf_unfold in Ht as [Hnd _]. assert (dget edge_eqb ed ch = Some s) as Hg by (apply (dget_NoDup_In _ edge_eqb_spec); assumption).
    destruct (Hp (ed :: p)) as (H1 & H2 & H3 & H4 & H5). rewrite (V_child v ch ed s p Hg) in *. split; [exact H1|]. split; [exact H2|]. split; [|split; [exact H4 | exact H5]].
    intros f C Hf q r E. rewrite <- (V_child v ch ed s (p ++ q) Hg). exact (H3 f C Hf q r E).
  Qed.

  Definition parent_ok (eid : string) (L : level) (fvar : string) (fvals : list val) (parent : option (relationship * list string * df)) : Prop :=
    match parent with
    | None => L = []
    | Some (r, avs, pdf) => exists P L0, L = (r, P) :: L0 /\ avs = lnames L0 /\ sees (r_pe r) L0 pdf P /\ NoDup (map (cell (r_pv r)) P) /\ r_ce r = eid /\
      fvar = r_cv r /\ forall v, In v fvals -> exists m, In m P /\ cell (r_pv r) m = v
    end.

  (** lookups from a node *)
  Lemma kids_look (b full : bool) eid e L q ff nf ch subs f : es_get es eid = Ok e ->
    kids full eid L q ch subs -> calculated f -> fentity f = eid -> given f = None ->
    (b = true -> forall q1 q2, fpath f = q1 ++ q2 -> nfull (V (TNode (full, ff, nf) ch) q1) = true) ->
    look_ok (lookup b (TNode (None, None) subs)) eid (if b then R eid else filter q (R eid)) f.
  Proof.
    intros He Hk C E Egv Hfull. destruct f as [ | r bf nm | p bs path u wh prev nm | | | ]; try exact I.
    - cbn [L_Value5.look_ok]. destruct (lookup b (TNode (None, None) subs) [(true, r)]) as [pd|x] eqn:El.
      + destruct (kids_forward es T tw incl given fs Hes Hip Hw b full eid L q ch subs (None, None) r pd Hk El) as (q' & H1 & H2).
        exists q'. split; [intros p0 [= <-]; exact H1|]. intros x m Hx Hm Ev. apply H2; [exact Hm|]. destruct b; [left; reflexivity | right; exists x; auto].
      + exists (fun _ => true). split; [discriminate | auto].
    - cbn [L_Value5.look_ok]. split; [exact Egv|]. intros ce Hb. destruct (agg_base es fs Hwt _ _ _ _ _ _ _ C) as (ce' & Hbne & Hpne & Hch & Hb' & _).
      assert (ce' = ce) as ->. { destruct bs as [|b0 bs]; [congruence|]. rewrite <- (Hb b0 (or_introl eq_refl)). symmetry. apply (Hb' b0 (or_introl eq_refl)). }
      assert (backward_chain rels eid path ce) as Hch'. { rewrite <- E. exact Hch. }
      destruct (lookup b (TNode (None, None) subs) (map (fun r : relationship => (false, r)) path)) as [bd|x] eqn:El.
      + destruct (kids_back es T tw incl given fs Hes Hip Hw b full eid L q ff nf ch subs (None, None) path bd ce Hk Hpne El) as (D & q' & H1 & H2 & H3 & H4).
        * intros Hbt. split; [exact (Hfull Hbt [] (fpath (FAgg p bs path u wh prev nm)) eq_refl) | exact (Hfull Hbt)].
        * exact Hch'.
        * exists q'. split.
          -- intros base [= <-]. exists (D ++ L). split; [exact H2|]. split; [exact H3|]. intros x c Hc Hx Hin. apply filter_In in Hc as [Hc Hqc].
             destruct (lev_link es T tw incl Hes Hip Hw L path D ce q' H1 (pf_links rels fs Hpf _ _ _ _ _ _ _ C)) as [N1 N2].
             eapply sr_cell; [exact Hes | exact Hcn | exact Hov | exact H2 | exact Hx | exact Hin | eapply mn_link; [exact N1 | apply N2; assumption]].
          -- intros r c Hr Hc Eo. apply H4; [exact Hc|]. destruct b; [left; reflexivity | right; exists r; auto].
      + exists (fun _ => true). split; [discriminate | auto].
  Qed.

  (** ** features calculated beforehand *)

  (** a frame of values calculated beforehand: it has one row per instance, its columns are columns of given features, and for
      the rows [rs] it holds the values given *)
  Definition given_frame (eid : string) (rs : list row) (d : df) : Prop :=
    NoDup (map (cell (index_of es eid)) (rows d)) /\ NoDup (cols d) /\
    forall c, In c (cols d) -> exists f g k, calculated f /\ fentity f = eid /\ given f = Some g /\ nth_error (fnames f) k = Some c /\
      forall r, In r rs -> match row_with (index_of es eid) (cell (index_of es eid) r) (rows d) with Some x => cell c x | None => VNull end = nth k (g r) VNull.

  Fixpoint pre_ok (eid : string) (q : row -> bool) (ft : ftrie) (pre : trie edge (option df)) {struct ft} : Prop :=
    match ft with
    | TNode (full, _, _) ch =>
      (forall d, tvalue pre = Some d -> (if full then R eid else filter q (R eid)) <> [] -> given_frame eid (if full then R eid else filter q (R eid)) d) /\
      (fix go (ch : list (edge * ftrie)) : Prop :=
         match ch with
         | [] => True
         | (ed, s) :: ch' => pre_ok (edst ed) (next ed (filter q (R eid))) s (get_node edge_eqb None [ed] pre) /\ go ch'
         end) ch
    end.

  Lemma pre_ok_unfold eid q full ff nf ch pre : pre_ok eid q (TNode (full, ff, nf) ch) pre <->
    (forall d, tvalue pre = Some d -> (if full then R eid else filter q (R eid)) <> [] -> given_frame eid (if full then R eid else filter q (R eid)) d) /\
    Forall (fun es0 => pre_ok (edst (fst es0)) (next (fst es0) (filter q (R eid))) (snd es0) (get_node edge_eqb None [fst es0] pre)) ch.
  Proof.
    cbn [pre_ok]. split; intros [H1 H2]; (split; [exact H1|]); clear H1.
    - induction ch as [|[ed s] ch IH]; constructor; [apply H2 | apply IH, H2].
    - induction ch as [|[ed s] ch IH]; [exact I|]. inversion H2; subst. split; [assumption | apply IH; assumption].
  Qed.

  Lemma pre_ok_nothing : forall ft eid q, pre_ok eid q ft (trie_new None).
  Proof.
    induction ft as [[[full ff] nf] ch IH] using trie_ind2. intros eid q. apply pre_ok_unfold. split; [discriminate|].
    induction IH as [|[ed s] ch Hs _ IHch]; constructor; [|exact IHch]. cbn [fst snd]. rewrite get_node_new. apply Hs.
  Qed.

  Lemma given_sem f g r : given f = Some g -> sem f r = g r.
  Proof. intros E. destruct f; cbn [sem_with]; rewrite E; reflexivity. Qed.

  (** the columns of a frame before features are calculated *)
  Definition plain_cols (eid : string) (e : entity) (cs : list string) : Prop :=
    forall c, In c cs -> In c (cols (e_df e)) \/ link_at es eid c.

  Lemma find_keyed c v n (xs : list row) :
    match find (fun kr => val_eqb (fst kr) v) (map (fun pr => (cell c pr, pr)) xs) with None => VNull | Some kr => cell n (snd kr) end
    = match row_with c v xs with Some x => cell n x | None => VNull end.
  Proof.
    unfold row_with. induction xs as [|x xs IH]; cbn [map find]; [reflexivity|]. cbn [fst]. destruct (val_eqb (cell c x) v); [reflexivity | exact IH].
  Qed.

  Lemma merge_pre_sees eid e L rs pre d : es_get es eid = Ok e -> lvl_ok eid L -> sees eid L d rs -> plain_cols eid e (cols d) ->
    (forall p, pre = Some p -> rs <> [] -> given_frame eid rs p) -> sees eid L (merge_precalculated (e_index e) pre d) rs.
  Proof.
    intros He HL Hs Hpc Hpre. destruct pre as [p|]; [|exact Hs]. cbn [merge_precalculated]. cbv zeta. destruct rs as [|r0 rs0] eqn:Ers.
    { destruct Hs as [Hix Hs]. split; [cbn [cols]; apply in_app_iff; left; exact Hix|]. cbn [rows cols]. inversion Hs. constructor. }
    rewrite <- Ers in *. assert (rs <> []) as Hne by (rewrite Ers; discriminate). clear Ers r0 rs0. destruct (Hpre p eq_refl Hne) as (Hn & Hnc & Hc). clear Hpre.
    rewrite (index_of_eq es eid e He) in *.
    assert (forall c, In c (cols p) -> ~ In c (cols d)) as Hfresh.
    { intros c Hin Hd. destruct (Hc c Hin) as (f & g & k & C & E & Eg & Hk & _). pose proof (nth_error_In _ _ Hk) as Hf.
      destruct (Hpc c Hd) as [Hraw|Hlink].
      - assert (is_ident f) as Hid by (apply (cn_variables es fs Hcn f e c C); [rewrite E; exact He | exact Hf | exact Hraw]).
        pose proof (Hov f g Eg) as Ha. destruct f; contradiction.
      - destruct Hlink as (r & c' & Hl & <- & ->). destruct (proj2 (cn_links es fs Hcn r c' Hl) f C E Hf) as [(b & -> & _) _]. exact (Hov _ _ Eg). }
    assert (map (fun c => (if mem_str c (cols d) then (c ++ "_precalculated")%string else c, c)) (cols p) = map (fun c => (c, c)) (cols p)) as ->.
    { apply map_ext_in. intros c Hin. destruct (mem_str c (cols d)) eqn:Em; [|reflexivity]. apply mem_str_In in Em. exfalso. exact (Hfresh c Hin Em). }
    assert (map fst (map (fun c : string => (c, c)) (cols p)) = cols p) as Efst by (rewrite map_map; apply map_id).
    rewrite Efst. rewrite left_merge_unique by (rewrite map_map; exact Hn).
    pose proof (sees_index es T tw incl given fs Hes Hcn Hov eid e L d rs HL He Hs) as Fi.
    destruct Hs as [Hix Hs]. split; [rewrite (index_of_eq es eid e He) in *; cbn [cols]; apply in_app_iff; left; exact Hix|].
    cbn [rows cols]. apply Forall2_map_l. eapply Forall2_impl; [|exact (Forall2_and _ _ _ _ Hs Fi)].
    intros x r _ Hr [Hx Ei]. cbv beta in Ei. apply (sees_row_step es T tw incl given fs eid L (cols d) (cols d ++ cols p) (cols p) x _ r Hx).
    - intros n. apply in_app_iff.
    - intros n Hn'. apply merge_row_other. rewrite Efst. exact Hn'.
    - intros n Hn'. rewrite (merge_row_new _ _ _ x n n); [|rewrite Efst; exact Hnc | apply in_map_iff; exists n; split; [reflexivity | exact Hn']].
      destruct (Hc n Hn') as (f & g & k & C & E & Eg & Hk & Hv). specialize (Hv r Hr).
      pose proof (mn_feat es T tw incl given fs eid L n r f k C E Hk) as Hm. rewrite (given_sem f g r Eg) in Hm.
      rewrite Ei. rewrite <- Hv in Hm. rewrite (find_keyed (e_index e) (cell (e_index e) r) n (rows p)). exact Hm.
  Qed.

  (** ** the parts of a node *)
  Lemma node_start eid e L (full : bool) fvar fvals names cs d0 parent d1 anc : es_get es eid = Ok e -> lvl_ok eid L -> parent_ok eid L fvar fvals parent -> key_col es eid fvar ->
    (full = true -> exists g, calculated g /\ uses_full g = true) ->
    necessary_columns idvars by_name eid names = Ok cs ->
    query_by_values es eid (if full then @None (list val) else Some fvals) (if full then @None string else Some fvar) (Some cs) (Some T) tw incl = Ok d0 ->
    match parent with
    | None => Ok (d0, [])
    | Some (r, avs, pdf) =>
      do (d, new) <- match avs with [] => Ok (d0, []) | _ => add_ancestor es d0 pdf avs r end;
      Ok (d, new ++ [r_cv r])
    end = Ok (d1, anc) ->
    sees eid L d1 (if full then R eid else filter (inb fvar fvals) (R eid)) /\ anc = lnames L /\ plain_cols eid e (cols d1).
  Proof.
    intros He HL Hpar Hkey Hfu Hcs Hd0 Hd1.
    assert (forall r, In r (if full then R eid else filter (inb fvar fvals) (R eid)) -> fits es T tw incl fs L r) as Hfits.
    { intros r Hr Hno. destruct full; [destruct (Hfu eq_refl) as (g & Cg & Eg); rewrite (Hno g Cg) in Eg; discriminate|].
      destruct parent as [[[r1 avs] pdf]|]; [|cbn [parent_ok] in Hpar; subst L; exact I].
      destruct Hpar as (P & L0 & -> & -> & Hp & HndP & <- & -> & Hv). inversion HL as [|r' P' L' Hr1 HL0 HP Ee]; subst.
      apply filter_In in Hr as [Hr Hin]. unfold inb in Hin. apply andb_true_iff in Hin as [Hin _]. apply mem_val_In in Hin. destruct (Hv _ Hin) as (m & Hm & Em).
      cbn [fit]. exists m. split; [rewrite <- Em; apply row_with_unique; assumption|]. split.
      - rewrite <- Em. apply row_with_unique; [|apply HP; exact Hm]. rewrite (parent_index' es Hes r1 Hr1). apply R_NoDup; assumption.
      - destruct Hp as [_ Hp]. clear -Hp Hm Hno. induction Hp as [|x y l l' Hxy _ IH]; [destruct Hm|]. destruct Hm as [->|Hm]; [exact (proj1 Hxy Hno) | exact (IH Hm)]. }
    destruct (start_sees eid e L full fvar fvals names cs d0 He HL Hkey Hfits Hcs Hd0) as [S0 Hraw].
    set (rs1 := if full then R eid else filter (inb fvar fvals) (R eid)) in *.
    destruct parent as [[[r avs] pdf]|].
    - destruct Hpar as (P & L0 & -> & -> & Hp & HndP & Hre & _). apply bind_Ok in Hd1 as ([d new] & Hd & Hd1). injection Hd1 as <- <-.
      inversion HL as [|r' P' L' Hr HL0 HP Ee]; subst. destruct (lnames L0) as [|v0 vs0] eqn:En.
      + injection Hd as <- <-. cbn [L_Value1.lnames]. rewrite En. split; [exact S0|]. split; [reflexivity|]. intros c Hc. left. apply Hraw. exact Hc.
      + rewrite <- En in Hd. destruct (ancestor_sees _ e r P L0 pdf d0 d new rs1 He HL Hr eq_refl S0 Hraw Hp HL0 HndP Hd) as [S1 Enew].
        split; [exact S1|]. split; [rewrite Enew; reflexivity|].
        assert (cols d = cols d0 ++ new) as Ed.
        { unfold add_ancestor in Hd. apply bind_Ok in Hd as (us & _ & Hd). apply bind_Ok in Hd as (u & _ & Hd). injection Hd as <- <-. reflexivity. }
        intros c Hc. rewrite Ed in Hc. apply in_app_iff in Hc as [Hc|Hc]; [left; apply Hraw; exact Hc|]. rewrite Enew in Hc. apply In_nth_error in Hc as (i & Hi).
        assert (nth_error (lnames ((r, P) :: L0)) i = Some c) as Hi'.
        { cbn [L_Value1.lnames]. rewrite nth_error_app1; [exact Hi | eapply nth_error_len; exact Hi]. }
        destruct (lnames_at es T tw incl (r_ce r) _ HL i c Hi') as [(r1 & P1 & L1 & E1 & -> & _ & Hr1 & Er1)|Hl]; [|right; exact Hl].
        left. injection E1 as <- <- <-. apply (proj1 (child_link es Hes r e Hr He)).
    - cbn [parent_ok] in Hpar. subst L. injection Hd1 as <- <-. split; [exact S0|]. split; [reflexivity|]. intros c Hc. left. apply Hraw. exact Hc.
  Qed.

  (** filtering by the values asked for *)
  Lemma isin_sees eid e L fvar fvals d d' rs : es_get es eid = Ok e -> lvl_ok eid L -> key_col es eid fvar -> (fvar = index_of es eid \/ ~ In VNull fvals) ->
    sees eid L d rs -> List.incl rs (R eid) -> isin_filter d fvar fvals = Ok d' -> sees eid L d' (filter (inb fvar fvals) rs) /\ cols d' = cols d.
  Proof.
    intros He HL Hkey Hnull Hs Hi Hf. unfold isin_filter in Hf. apply bind_Ok in Hf as (u & Hu & Hf). injection Hf as <-. split; [|reflexivity]. apply check_col_Ok in Hu.
    destruct Hs as [Hix Hs]. split; [exact Hix|]. cbn [filter_df rows cols].
    assert (Forall2 (fun x r => sees_row eid L (cols d) x r /\ mem_val (cell fvar x) fvals = inb fvar fvals r) (rows d) rs) as Hs'.
    { eapply Forall2_impl; [|exact Hs]. intros x r _ Hr Hx. split; [exact Hx|].
      rewrite (sr_raw es T tw incl given fs Hes Hcn Hov eid L e (cols d) x r fvar HL He Hx Hu (key_col_raw eid e fvar He Hkey)). unfold inb.
      destruct (is_null (cell fvar r)) eqn:En; [|rewrite andb_true_r; reflexivity]. rewrite andb_false_r.
      assert (cell fvar r = VNull) as Ev by (destruct (cell fvar r); try discriminate; reflexivity). destruct Hnull as [->|Hnn].
      - exfalso. exact (R_nonnull es T tw incl Hes Hip Hw eid r (Hi r Hr) Ev).
      - rewrite Ev. destruct (mem_val VNull fvals) eqn:Em; [apply mem_val_In in Em; contradiction | reflexivity]. }
    eapply Forall2_impl; [|apply (Forall2_filter _ (fun r => mem_val (cell fvar r) fvals) (inb fvar fvals) _ _); [|exact Hs']]; [intros x r _ _ [Hx _]; exact Hx | intros x r _ [_ Hx]; exact Hx].
  Qed.

  (** the children of a node *)
  Lemma node_kids eid e L (full : bool) q ch pre d1 fd subs : es_get es eid = Ok e -> lvl_ok eid L ->
    Forall (fun es0 => forall eid L fvar fvals pre parent tr,
      typed rels (node_names rels calculated) eid (snd es0) -> twf (snd es0) -> plan_ok (snd es0) -> lvl_ok eid L -> parent_ok eid L fvar fvals parent ->
      key_col es eid fvar -> (fvar = index_of es eid \/ ~ In VNull fvals) ->
      pre_ok eid (inb fvar fvals) (snd es0) pre ->
      calc_node es idvars by_name ord T tw incl (snd es0) eid pre fvar fvals parent = Ok tr ->
      good eid L (inb fvar fvals) (snd es0) tr) ch ->
    Forall (fun es0 => In (snd (fst es0)) rels /\ esrc (fst es0) = eid /\ typed rels (node_names rels calculated) (edst (fst es0)) (snd es0)) ch ->
    (forall ed s, In (ed, s) ch -> plan_ok s /\ twf s) ->
    Forall (fun es0 => pre_ok (edst (fst es0)) (next (fst es0) (filter q (R eid))) (snd es0) (get_node edge_eqb None [fst es0] pre)) ch ->
    sees eid L d1 (if full then R eid else filter q (R eid)) -> sees eid L fd (filter q (R eid)) ->
    (fix go (ch : list (edge * ftrie)) : res (list (edge * dtrie)) :=
         match ch with
         | [] => Ok []
         | (ed, s) :: ch' =>
           do sub <- (if fst ed
                      then do vs <- column fd (r_cv (snd ed));
                           calc_node es idvars by_name ord T tw incl s (r_pe (snd ed)) (get_node edge_eqb None [ed] pre) (r_pv (snd ed)) vs None
                      else do vs <- column fd (r_pv (snd ed));
                           calc_node es idvars by_name ord T tw incl s (r_ce (snd ed)) (get_node edge_eqb None [ed] pre) (r_cv (snd ed)) vs
                             (Some (snd ed, lnames L, d1)));
           do rest <- go ch';
           Ok ((ed, sub) :: rest)
         end) ch = Ok subs ->
    kids full eid L q ch subs.
  Proof.
    intros He HL IH Hch Hpc Hprec S1 Sfd Hsubs. set (rs1 := if full then R eid else filter q (R eid)) in *.
    assert (List.incl (filter q (R eid)) (R eid)) as Hfi by (intros x Hx; apply filter_In in Hx; apply Hx).
    assert (NoDup (map (cell (index_of es eid)) (R eid))) as HnR by (apply R_NoDup; assumption).
    assert (List.incl rs1 (R eid) /\ NoDup (map (cell (index_of es eid)) rs1)) as [Hi1 Hn1] by (unfold rs1; destruct full; split; auto; [apply incl_refl | apply NoDup_map_filter; exact HnR]).
    revert subs Hsubs Hpc Hch IH Hprec. induction ch as [|[ed s] ch' IHch]; intros subs Hsubs Hpc Hch IH Hprec.
    - injection Hsubs as <-. constructor.
    - apply bind_Ok in Hsubs as (sub & Hsub & Hsubs). apply bind_Ok in Hsubs as (rest & Hrest & Hsubs). injection Hsubs as <-.
      inversion Hch as [|x l (Hr & Hsrc & Hty) Hch']; subst. inversion IH as [|x l IHs IH']; subst. inversion Hprec as [|x l Hp1 Hprec']; subst. cbn [fst snd] in Hr, Hty, IHs, Hp1.
      constructor; [|apply IHch; [exact Hrest | intros ed0 s0 Hin; apply (Hpc ed0 s0); right; exact Hin | exact Hch' | exact IH' | exact Hprec']].
      cbn [fst snd]. split; [reflexivity|]. split; [exact Hr|]. split; [reflexivity|].
      destruct (Hpc ed s (or_introl eq_refl)) as [Hps Hts]. destruct ed as [fw r]. unfold esrc, edst in *. cbn [fst snd] in *.
      destruct fw.
      + apply bind_Ok in Hsub as (vs & Hvs & Hsub). apply column_Ok in Hvs as [Hvc ->].
        assert (map (cell (r_cv r)) (rows fd) = map (cell (r_cv r)) (filter q (R (r_ce r)))) as Ev.
        { eapply sees_col; [exact Sfd|]. intros x c _ Hx. eapply sr_raw; [exact Hes | exact Hcn | exact Hov | exact HL | exact He | exact Hx | exact Hvc |]. apply (proj1 (child_link es Hes r e Hr He)). }
        rewrite Ev in Hsub. unfold next. cbn [fst snd].
        eapply IHs with (parent := None); [exact Hty | exact Hts | exact Hps | apply lvl_nil | reflexivity | left; apply parent_index'; assumption | left; apply parent_index'; assumption | exact Hp1 | exact Hsub].
      + apply bind_Ok in Hsub as (vs & Hvs & Hsub). apply column_Ok in Hvs as [Hvc ->].
        assert (map (cell (r_pv r)) (rows fd) = map (cell (r_pv r)) (filter q (R (r_pe r)))) as Ev.
        { eapply sees_col; [exact Sfd|]. intros x c _ Hx. eapply sr_raw; [exact Hes | exact Hcn | exact Hov | exact HL | exact He | exact Hx | exact Hvc |].
          apply (key_col_raw (r_pe r) e); [exact He | left; apply parent_index'; assumption]. }
        rewrite Ev in Hsub. unfold next. cbn [fst snd].
        fold rs1. eapply IHs with (parent := Some (r, lnames L, d1)); [exact Hty | exact Hts | exact Hps | apply lvl_cons; [exact Hr | exact HL | exact Hi1] | | right; exists r; auto | right | exact Hp1 | exact Hsub].
        * cbn [parent_ok]. exists rs1, L. split; [reflexivity|]. split; [reflexivity|]. split; [exact S1|]. split; [rewrite (parent_index' es Hes r Hr); exact Hn1 |]. split; [reflexivity|]. split; [reflexivity|]. intros v Hin. apply in_map_iff in Hin as (m & Em & Hm). exists m. split; [|exact Em]. unfold rs1. destruct full; [apply Hfi; exact Hm | exact Hm].
        * intros Hin. apply in_map_iff in Hin as (m & Em & Hm). apply filter_In in Hm as [Hm _]. exact (pv_nonnull es T tw incl Hes Hip Hw r m Hr Hm Em).
  Qed.

  Lemma calc_node_good : forall ft eid L fvar fvals pre parent tr,
    typed rels (node_names rels calculated) eid ft -> twf ft -> plan_ok ft -> lvl_ok eid L -> parent_ok eid L fvar fvals parent ->
    key_col es eid fvar -> (fvar = index_of es eid \/ ~ In VNull fvals) ->
    pre_ok eid (inb fvar fvals) ft pre ->
    calc_node es idvars by_name ord T tw incl ft eid pre fvar fvals parent = Ok tr ->
    good eid L (inb fvar fvals) ft tr.
  Proof.
    induction ft as [[[full ff] nf] ch IH] using trie_ind2. intros eid L fvar fvals pre parent tr Hty Htw Hpl HL Hpar Hkey Hnull Hpre H.
    apply pre_ok_unfold in Hpre as [Hpre Hprec].
    apply typed_unfold in Hty as [Hnames Hch]. destruct Hnames as (Nff & Nnf & Nfull). cbn [calc_node] in H.
    apply bind_Ok in H as (e & He & H). apply bind_Ok in H as (cs & Hcs & H). apply bind_Ok in H as (d0 & Hd0 & H). apply bind_Ok in H as ([d1 anc] & Hd1 & H).
    apply bind_Ok in H as (fd & Hfd & H). apply bind_Ok in H as (subs & Hsubs & H). cbv zeta in H. set (d2 := merge_precalculated (e_index e) (tvalue pre) d1) in *.
    apply bind_Ok in H as (d3 & Hd3 & H). apply bind_Ok in H as (d4 & Hd4 & H). apply bind_Ok in H as (d5 & Hd5 & H). injection H as <-.
    set (q := inb fvar fvals). set (rs1 := if full then R eid else filter q (R eid)).
    destruct (Hpl []) as (Pn1 & Pn2 & Pfull & Pgv & Pfu). cbn [app] in Pfull. change (V (TNode (full, ff, nf) ch) []) with ((full, ff, nf) : fnode) in Pn1, Pn2, Pfull, Pgv, Pfu. cbn [nff nnf nfull fst snd] in Pn1, Pn2, Pfull, Pgv, Pfu.
    destruct (node_start eid e L full fvar fvals (ff ++ nf) cs d0 parent d1 anc He HL Hpar Hkey Pfu Hcs Hd0 Hd1) as (S1 & -> & Hpc1). fold q in S1. fold rs1 in S1.
    assert (sees eid L d2 rs1) as S2 by (apply (merge_pre_sees eid e L rs1 (tvalue pre) d1 He HL S1 Hpc1); intros p Hp Hne; apply Hpre; assumption).
    clear Hd0 Hd1 Hcs.
    assert (forall d d' rs, sees eid L d rs -> List.incl rs (R eid) -> isin_filter d fvar fvals = Ok d' -> sees eid L d' (filter q rs) /\ cols d' = cols d) as Hisin
      by (intros d d' rs; apply (isin_sees eid e L fvar fvals d d' rs He HL Hkey Hnull)).
    assert (List.incl (filter q (R eid)) (R eid)) as Hfi by (intros x Hx; apply filter_In in Hx; apply Hx).
    assert (NoDup (map (cell (index_of es eid)) (R eid))) as HnR by (apply R_NoDup; assumption).
    assert (NoDup (map (cell (index_of es eid)) (filter q (R eid)))) as HnF by (apply NoDup_map_filter; exact HnR).
    assert (List.incl rs1 (R eid) /\ NoDup (map (cell (index_of es eid)) rs1)) as [Hi1 Hn1] by (unfold rs1; destruct full; split; auto; apply incl_refl).
    assert (sees eid L fd (filter q (R eid))) as Sfd.
    { unfold rs1 in *. destruct full; [apply (Hisin d1 fd (R eid) S1 (incl_refl _) Hfd) | injection Hfd as <-; exact S1]. }
    (* the children *)
    assert (kids full eid L q ch subs) as Hkids.
    { apply (node_kids eid e L full q ch pre d1 fd subs He HL IH Hch); [|exact Hprec | exact S1 | exact Sfd | exact Hsubs].
      intros ed s Hin. split; [eapply plan_ok_child; eassumption|]. apply twf_unfold in Htw as [_ Hall]. rewrite Forall_forall in Hall. exact (Hall _ Hin). }
    (* features that need every row *)
    assert ((full = true -> sees eid L d3 (R eid)) /\ sees eid L d4 (filter q (R eid)) /\ (forall f, calculated f -> In (funique f) ff -> there d4 (filter q (R eid)) f)) as (S3 & S4 & T4).
    { unfold rs1 in *. destruct full.
      - destruct (calc_features_sees es T tw incl given fs Hes Hip Hw Hcn Hov Hwt Hpf Hovl by_name ord Hby Hord eid e L (R eid) ff (lookup true (TNode (None, None) subs)) d2 d3 HL He (incl_refl _) HnR Pn1) as (S3 & I3 & T3); [|exact S2 | exact Hd3|].
        { intros n Hn. destruct (Nff n Hn) as (f & C & E & En). exists f. split; [exact C|]. split; [exact E|]. split; [exact En|]. split; [reflexivity|].
          apply (kids_look true true eid e L q ff nf ch subs f He Hkids C E); [apply (Pgv f C); apply in_app_iff; left; rewrite <- En; exact Hn|]. intros _ q1 q2 Ep. apply (Pfull f C) with (r := q2); [rewrite <- En; exact Hn | exact Ep]. }
        split; [intros _; exact S3|]. destruct (Hisin d3 d4 (R eid) S3 (incl_refl _) Hd4) as [S4 C4]. split; [exact S4|].
        intros f C Hf. eapply there_mono; [|exact Hfi|apply T3; assumption]. rewrite C4. apply incl_refl.
      - injection Hd3 as <-. injection Hd4 as <-. split; [discriminate|]. split; [exact S2|]. intros f C Hf. rewrite (Nfull eq_refl) in Hf. destruct Hf. }
    (* the others *)
    destruct (calc_features_sees es T tw incl given fs Hes Hip Hw Hcn Hov Hwt Hpf Hovl by_name ord Hby Hord eid e L (filter q (R eid)) nf (lookup false (TNode (None, None) subs)) d4 d5 HL He Hfi HnF Pn2) as (S5 & I5 & T5); [|exact S4 | exact Hd5|].
    { intros n Hn. destruct (Nnf n Hn) as (f & C & E & En & Hu). exists f. split; [exact C|]. split; [exact E|]. split; [exact En|]. split; [congruence|].
      apply (kids_look false full eid e L q ff nf ch subs f He Hkids C E); [apply (Pgv f C); apply in_app_iff; right; rewrite <- En; exact Hn | discriminate]. }
    apply good_unfold. split; [exact HL|]. split; [|split; [|exact Hkids]].
    - intros d3' E3. destruct full; [injection E3 as <-; apply S3; reflexivity | discriminate].
    - exists d5. split; [reflexivity|]. split; [exact S5|]. intros f C Hf. apply in_app_iff in Hf as [Hf|Hf]; [|apply T5; assumption].
      eapply there_mono; [exact I5 | apply incl_refl | apply T4; assumption].
  Qed.
End Value7.
