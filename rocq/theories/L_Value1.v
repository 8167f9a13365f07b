(** Frames of the calculator whose cells hold the meaning of their columns. *)
From Verif Require Import Base BaseFacts M_Schema S_Schema M_Trie M_Table M_Query S_Query L_Query S_View L_View
  M_Feature M_FeatureSet M_Calc S_Calc S_Group S_Sem S_Approx S_Value L_Frame L_FeatureSet P_Select.

(** ** lists *)
Lemma Forall2_flip {A B} (R : A -> B -> Prop) l l' : Forall2 R l l' -> Forall2 (fun b a => R a b) l' l.
Proof. induction 1; constructor; auto. Qed.

Lemma Forall2_map_both {A B C D} (R : C -> D -> Prop) (f : A -> C) (g : B -> D) l l' :
  Forall2 (fun a b => R (f a) (g b)) l l' -> Forall2 R (map f l) (map g l').
Proof. induction 1; simpl; constructor; auto. Qed.

Lemma nth_error_map_Some {A B} (f : A -> B) l i b : nth_error (map f l) i = Some b -> exists a, nth_error l i = Some a /\ b = f a.
Proof. rewrite nth_error_map. destruct (nth_error l i) as [a|]; cbn; [intros [= <-]; eauto | discriminate]. Qed.

Lemma nth_error_nth' {A} (l : list A) i a d : nth_error l i = Some a -> nth i l d = a.
Proof. revert i. induction l as [|x l IH]; intros [|i] H; cbn in *; try discriminate; [congruence | auto]. Qed.

Lemma nth_error_nth'' {A} (l : list A) i d : i < List.length l -> nth_error l i = Some (nth i l d).
Proof. revert i. induction l as [|x l IH]; intros [|i] H; cbn in *; try lia; [reflexivity | apply IH; lia]. Qed.

Lemma nth_error_len {A} (l : list A) i a : nth_error l i = Some a -> i < List.length l.
Proof. intros H. apply nth_error_Some. congruence. Qed.

Lemma nth_error_ex {A} (l : list A) i : i < List.length l -> exists a, nth_error l i = Some a.
Proof. intros H. apply nth_error_Some in H. destruct (nth_error l i); [eauto | congruence]. Qed.

Lemma nth_map_null {A} (f : A -> val) l i (d : A) : i < List.length l -> nth i (map f l) VNull = f (nth i l d).
Proof. intros H. rewrite nth_indep with (d' := f d) by (rewrite map_length; exact H). apply map_nth. Qed.

(** ** the level of a node: the backward relationships that lead to it, nearest first, each with the rows
    of the frame of its parent *)
Definition level : Type := list (relationship * list row).

Section Value1.
  Variables (es : entityset) (idvars : string -> list string) (T : Z) (tw : option window) (incl : bool) (given : feat -> option (row -> list val)) (fs : list feat).
  Notation rels := (es_rels es).
  Notation fname := (fname rels).
  Notation fnames := (fnames rels).
  Notation R := (rows_at es T tw incl).
  Notation sem := (sem_with es T tw incl given).
  Notation owner := (owner es T tw incl).
  Notation calculated := (calculated fs).

  Hypothesis Hes : good_es es.
  Hypothesis Hip : index_present es.
  Hypothesis Hiv : good_idvars es idvars.
  Hypothesis Hw : win_time tw.
  Hypothesis Hcn : clear_names es fs.
  Hypothesis Hov : forall f g, given f = Some g -> is_aggregation f.

  (** ** the rows of an entity *)
  Lemma index_of_eq eid e : es_get es eid = Ok e -> index_of es eid = e_index e.
  Proof. intros H. unfold index_of. rewrite H. reflexivity. Qed.

  Lemma ent_good eid e : es_get es eid = Ok e -> good_entity rels e.
  Proof. intros H. apply (proj1 Hes). apply (es_get_id es eid e H). Qed.

  Lemma parent_index r e : In r rels -> es_get es (r_pe r) = Ok e -> r_pv r = e_index e.
  Proof.
    intros Hr He. destruct (ent_good _ _ He) as (_ & _ & _ & _ & _ & _ & H). apply H; [exact Hr|]. symmetry. apply (es_get_id es _ _ He).
  Qed.
  Lemma parent_index' r : In r rels -> r_pv r = index_of es (r_pe r).
  Proof. intros Hr. destruct (proj2 Hes r Hr) as [(e & He) _]. rewrite (index_of_eq _ _ He). apply parent_index; assumption. Qed.
  Lemma child_get r : In r rels -> exists e, es_get es (r_ce r) = Ok e.
  Proof. intros Hr. exact (proj2 (proj2 Hes r Hr)). Qed.
  Lemma parent_get r : In r rels -> exists e, es_get es (r_pe r) = Ok e.
  Proof. intros Hr. exact (proj1 (proj2 Hes r Hr)). Qed.
  Lemma child_link r e : In r rels -> es_get es (r_ce r) = Ok e -> In (r_cv r) (cols (e_df e)) /\ never_hidden e (r_cv r).
  Proof.
    intros Hr He. destruct (ent_good _ _ He) as (_ & _ & _ & _ & _ & H & _). destruct (H r Hr) as [H1 H2]; [symmetry; apply (es_get_id es _ _ He) | auto].
  Qed.

  Lemma R_eq eid e : es_get es eid = Ok e ->
    R eid = filter (keepb e T (win_lo tw T) incl) (view e T incl (rows (e_df e))).
  Proof.
    intros He. destruct (ent_good _ _ He) as (Hwf & Hind & Hnd & Hni & Hnt & _ & _).
    unfold rows_at. rewrite (query_of_view es eid e None None T tw incl He Hwf Hind Hnd Hw); [|exact (proj1 (proj2 Hwf))|exact Hni|exact Hni|exact Hnt].
    cbn [rows valsb]. apply filter_ext. intros r. reflexivity.
  Qed.

  Lemma R_none eid x : es_get es eid = Err x -> R eid = [].
  Proof. intros H. unfold rows_at, query_by_values. rewrite H. reflexivity. Qed.

  Lemma R_index eid e : es_get es eid = Ok e ->
    NoDup (map (cell (e_index e)) (R eid)) /\ forall r, In r (R eid) -> cell (e_index e) r <> VNull.
  Proof.
    intros He. destruct (ent_good _ _ He) as (Hwf & _ & _ & Hni & _ & _ & _). rewrite (R_eq _ _ He). unfold view.
    assert (map (cell (e_index e)) (map (maskb (e_sec e) T) (filter (upb e T incl) (rows (e_df e)))) = map (cell (e_index e)) (filter (upb e T incl) (rows (e_df e)))) as E.
    { rewrite map_map. apply map_ext. intros r. apply cell_mask_never. exact Hni. }
    split.
    - apply NoDup_map_filter. rewrite E. apply NoDup_map_filter. apply Hwf.
    - intros r Hr. apply filter_In in Hr as [Hr _]. apply in_map_iff in Hr as (r0 & <- & Hr0). rewrite (cell_mask_never e T r0 _ Hni).
      apply filter_In in Hr0 as [Hr0 _]. apply (Hip e r0); [apply (es_get_id es _ _ He) | exact Hr0].
  Qed.

  Lemma R_NoDup eid : NoDup (map (cell (index_of es eid)) (R eid)).
  Proof.
    unfold index_of. destruct (es_get es eid) as [e|x] eqn:E; [apply (R_index eid e E) | rewrite (R_none _ _ E); constructor].
  Qed.
  Lemma R_nonnull eid r : In r (R eid) -> cell (index_of es eid) r <> VNull.
  Proof.
    unfold index_of. destruct (es_get es eid) as [e|x] eqn:E; [apply (R_index eid e E) | rewrite (R_none _ _ E); intros []].
  Qed.

  (** ** queries *)
  Definition inb (var : string) (vs : list val) (r : row) : bool := mem_val (cell var r) vs && negb (is_null (cell var r)).

  Definition proj (cs : list string) (r : row) : row := map (fun c => (c, cell c r)) cs.

  (** columns that rows may be chosen by *)
  Definition key_col (eid var : string) : Prop :=
    var = index_of es eid \/ exists r, In r rels /\ r_ce r = eid /\ var = r_cv r.

  Lemma query_some eid e vs var cs d : es_get es eid = Ok e -> key_col eid var ->
    query_by_values es eid (Some vs) (Some var) (Some cs) (Some T) tw incl = Ok d ->
    d = mkDf cs (map (proj cs) (filter (inb var vs) (R eid))) /\ List.incl cs (cols (e_df e)).
  Proof.
    intros He Hk. destruct (ent_good _ _ He) as (Hwf & Hind & Hnd & Hni & Hnt & Hlink & _).
    assert (In var (cols (e_df e)) /\ never_hidden e var) as [Hv1 Hv2].
    { destruct Hk as [Hd|(r & Hr & Hc & Hd)]; rewrite Hd; [rewrite (index_of_eq _ _ He); split; [exact (proj1 (proj2 Hwf)) | exact Hni]|].
      rewrite <- Hc in He. apply (child_link _ _ Hr He). }
    rewrite query_cols_eq, (query_of_view es eid e (Some vs) (Some var) T tw incl He Hwf Hind Hnd Hw Hv1 Hni Hv2 Hnt). cbn [bind].
    unfold select_cols. cbn [rows cols]. intros H. apply bind_Ok in H as (us & Hus & H). injection H as <-. apply mapM_check_Ok in Hus. cbn [cols] in Hus.
    split; [|exact Hus]. f_equal. rewrite (R_eq _ _ He), filter_filter. unfold proj. apply f_equal. apply filter_ext. intros r. unfold inb. cbn [qvar valsb]. apply andb_comm.
  Qed.

  Lemma query_all eid e cs d : es_get es eid = Ok e ->
    query_by_values es eid None None (Some cs) (Some T) tw incl = Ok d ->
    d = mkDf cs (map (proj cs) (R eid)) /\ List.incl cs (cols (e_df e)).
  Proof.
    intros He. destruct (ent_good _ _ He) as (Hwf & Hind & Hnd & Hni & Hnt & Hlink & _).
    rewrite query_cols_eq, (query_of_view es eid e None None T tw incl He Hwf Hind Hnd Hw (proj1 (proj2 Hwf)) Hni Hni Hnt). cbn [bind].
    unfold select_cols. cbn [rows cols]. intros H. apply bind_Ok in H as (us & Hus & H). injection H as <-. apply mapM_check_Ok in Hus. cbn [cols] in Hus.
    split; [|exact Hus]. f_equal. rewrite (R_eq _ _ He). unfold proj. apply f_equal. apply filter_ext. intros r. reflexivity.
  Qed.

  Lemma cell_proj_out c cs r : ~ In c cs -> cell c (proj cs r) = VNull.
  Proof.
    intros H. unfold cell at 1, proj. assert (dget String.eqb c (map (fun c => (c, cell c r)) cs) = None) as ->; [|reflexivity].
    apply (dget_None _ String.eqb_spec). rewrite map_map. cbn [fst]. rewrite map_id. exact H.
  Qed.

  (** ** lookups by the index *)
  Lemma row_with_In c v rs m : row_with c v rs = Some m -> In m rs /\ cell c m = v.
  Proof. apply find_some_key. Qed.
  Lemma row_with_unique c rs m : NoDup (map (cell c) rs) -> In m rs -> row_with c (cell c m) rs = Some m.
  Proof. apply find_key_unique. Qed.
  Lemma row_with_None c v rs : row_with c v rs = None <-> ~ In v (map (cell c) rs).
  Proof. apply find_key_None. Qed.

  (** a lookup in part of the rows agrees with a lookup in all of them when the row sought is in the part *)
  Lemma row_with_part c v rs q : NoDup (map (cell c) rs) -> (forall m, In m rs -> cell c m = v -> q m = true) ->
    row_with c v (filter q rs) = row_with c v rs.
  Proof.
    intros Hn Hq. destruct (row_with c v rs) as [m|] eqn:E.
    - apply row_with_In in E as [Hm Hc]. subst v. apply row_with_unique; [apply NoDup_map_filter; exact Hn|]. apply filter_In. split; [exact Hm | apply Hq; auto].
    - apply row_with_None in E. apply row_with_None. intros H. apply E. apply in_map_iff in H as (m & Hm & Hin). apply filter_In in Hin as [Hin _].
      apply in_map_iff. exists m; auto.
  Qed.

  Lemma at_row_nth idx rs col k r : NoDup (map (cell idx) rs) -> List.length col = List.length rs -> nth_error rs k = Some r ->
    at_row idx rs (cell idx r) col = nth k col VNull.
  Proof.
    unfold at_row. revert col k. induction rs as [|x rs IH]; intros col k Hn Hl Hk; [destruct k; discriminate|].
    destruct col as [|v col]; [discriminate|]. cbn [map combine find fst snd]. cbn [map] in Hn. inversion Hn as [|y l Hy Hl']; subst.
    destruct k as [|k]; cbn [nth_error nth] in *.
    - injection Hk as ->. destruct (val_eqb_spec (cell idx r) (cell idx r)); [reflexivity | congruence].
    - destruct (val_eqb_spec (cell idx x) (cell idx r)) as [E|E].
      + exfalso. apply Hy. rewrite E. apply in_map. eapply nth_error_In; exact Hk.
      + apply IH; [exact Hl' | cbn in Hl; lia | exact Hk].
  Qed.

  (** ** links *)
  Fixpoint lnames (L : level) : list string :=
    match L with
    | [] => []
    | (r, _) :: L' => map (fun v => (parent_name rels r ++ "." ++ v)%string) (lnames L') ++ [r_cv r]
    end.
  Fixpoint lvals (L : level) (c : row) : list val :=
    match L with
    | [] => []
    | (r, P) :: L' =>
      (match row_with (r_pv r) (cell (r_cv r) c) P with
       | Some m => lvals L' m
       | None => map (fun _ => VNull) (lnames L')
       end) ++ [cell (r_cv r) c]
    end.

  Lemma lvals_length L : forall c, List.length (lvals L c) = List.length (lnames L).
  Proof.
    induction L as [|[r P] L IH]; intros c; cbn [lvals lnames]; [reflexivity|]. rewrite !app_length, map_length. f_equal.
    destruct (row_with _ _ _) as [m|]; [apply IH | apply map_length].
  Qed.

  Inductive lvl_ok : string -> level -> Prop :=
  | lvl_nil eid : lvl_ok eid []
  | lvl_cons r P L : In r rels -> lvl_ok (r_pe r) L -> List.incl P (R (r_pe r)) -> lvl_ok (r_ce r) ((r, P) :: L).

  (** a link column of the rows of an entity *)
  Definition link_at (eid n : string) : Prop := exists r c, link_column rels r c /\ r_ce r = eid /\ n = link_name rels r c.
  Lemma link_column_In r c : link_column rels r c -> In r rels.
  Proof. destruct 1; assumption. Qed.

  Lemma lnames_cases eid L : lvl_ok eid L -> forall i c, nth_error (lnames L) i = Some c ->
    (exists r P L', L = (r, P) :: L' /\ c = r_cv r /\ i = List.length (lnames L') /\ In r rels /\ eid = r_ce r) \/
    (exists r P L' c', L = (r, P) :: L' /\ eid = r_ce r /\ c = link_name rels r c' /\ nth_error (lnames L') i = Some c' /\ link_column rels r c').
  Proof.
    induction 1 as [eid|r P L Hr Hl IH HP]; intros i c Hi; [destruct i; discriminate|]. cbn [lnames] in Hi.
    destruct (Nat.lt_ge_cases i (List.length (lnames L))) as [Hlt|Hge].
    - right. rewrite nth_error_app1 in Hi by (rewrite map_length; exact Hlt). apply nth_error_map_Some in Hi as (c' & Hc' & ->). exists r, P, L, c'. repeat (split; [reflexivity|]). split; [exact Hc'|].
      destruct (IH i c' Hc') as [(r0 & P0 & L0 & -> & -> & _ & Hr0 & He)|(r0 & P0 & L0 & c0 & -> & He & -> & _ & H)]; [apply lc_first; [exact Hr0 | exact Hr | congruence] | apply lc_next; [exact Hr | congruence | exact H]].
    - left. rewrite nth_error_app2 in Hi by (rewrite map_length; exact Hge). rewrite map_length in Hi. exists r, P, L. split; [reflexivity|].
      destruct (i - List.length (lnames L)) as [|k] eqn:E; [|destruct k; discriminate]. injection Hi as <-. split; [reflexivity|]. split; [lia | auto].
  Qed.
  Lemma lnames_at eid L : lvl_ok eid L -> forall i c, nth_error (lnames L) i = Some c ->
    (exists r P L', L = (r, P) :: L' /\ c = r_cv r /\ i = List.length (lnames L') /\ In r rels /\ eid = r_ce r) \/ link_at eid c.
  Proof.
    intros HL i c Hi. destruct (lnames_cases eid L HL i c Hi) as [H|(r & P & L' & c' & _ & -> & -> & _ & H)]; [left; exact H | right; exists r, c'; auto].
  Qed.

  Lemma app_inj_l (a b c : string) : (a ++ b)%string = (a ++ c)%string -> b = c.
  Proof. induction a as [|x a IH]; cbn; [auto | intros [= H]; auto]. Qed.

  Lemma link_not_raw eid e c : es_get es eid = Ok e -> link_at eid c -> ~ In c (cols (e_df e)).
  Proof. intros He (r & c' & H & <- & ->). apply (cn_links es fs Hcn) in H as [H _]. apply H; exact He. Qed.

  Lemma lnames_inj eid L : lvl_ok eid L -> forall i j c, nth_error (lnames L) i = Some c -> nth_error (lnames L) j = Some c -> i = j.
  Proof.
    induction 1 as [eid|r P L Hr Hl IH HP]; intros i j c Hi Hj; [destruct i; discriminate|]. cbn [lnames] in Hi, Hj.
    assert (forall i c, nth_error (map (fun v => (parent_name rels r ++ "." ++ v)%string) (lnames L) ++ [r_cv r]) i = Some c ->
      (i < List.length (lnames L) /\ exists c', nth_error (lnames L) i = Some c' /\ c = (parent_name rels r ++ "." ++ c')%string) \/ (i = List.length (lnames L) /\ c = r_cv r)) as Hc.
    { clear. intros i c Hi. destruct (Nat.lt_ge_cases i (List.length (lnames L))) as [Hlt|Hge].
      - left. split; [exact Hlt|]. rewrite nth_error_app1 in Hi by (rewrite map_length; exact Hlt). apply nth_error_map_Some in Hi. exact Hi.
      - right. rewrite nth_error_app2 in Hi by (rewrite map_length; exact Hge). rewrite map_length in Hi.
        destruct (i - List.length (lnames L)) as [|k] eqn:E; [|destruct k; discriminate]. injection Hi as <-. split; [lia | reflexivity]. }
    destruct (child_get r Hr) as (e & He). destruct (child_link r e Hr He) as [Hcv _].
    assert (forall c', In c' (lnames L) -> r_cv r <> (parent_name rels r ++ "." ++ c')%string) as Hd.
    { intros c' Hc' E. apply In_nth_error in Hc' as (k & Hk).
      apply (link_not_raw (r_ce r) e (parent_name rels r ++ "." ++ c')%string He); [|rewrite <- E; exact Hcv].
      exists r, c'. split; [|split; reflexivity]. destruct (lnames_cases _ _ Hl k c' Hk) as [(r0 & P0 & L0 & -> & -> & _ & Hr0 & He0)|(r0 & P0 & L0 & c0 & -> & He0 & -> & _ & H)]; [apply lc_first; [exact Hr0 | exact Hr | congruence] | apply lc_next; [exact Hr | congruence | exact H]]. }
    destruct (Hc i c Hi) as [(Hi1 & c1 & Hi2 & E1)|[Hi1 E1]], (Hc j c Hj) as [(Hj1 & c2 & Hj2 & E2)|[Hj1 E2]].
    - assert (c1 = c2) as <-. { apply (app_inj_l "."%string). apply (app_inj_l (parent_name rels r)). congruence. }
      eapply IH; eassumption.
    - exfalso. apply (Hd c1); [eapply nth_error_In; exact Hi2 | congruence].
    - exfalso. apply (Hd c2); [eapply nth_error_In; exact Hj2 | congruence].
    - congruence.
  Qed.

  Lemma given_none f : ~ is_aggregation f -> given f = None.
  Proof. intros H. destruct (given f) as [g|] eqn:E; [exfalso; apply H; eapply Hov; exact E | reflexivity]. Qed.

  (** ** the meaning of a column *)
  Inductive means (eid : string) (L : level) (c : string) (r : row) : val -> Prop :=
  | mn_raw e : es_get es eid = Ok e -> In c (cols (e_df e)) -> means eid L c r (cell c r)
  | mn_link i v : nth_error (lnames L) i = Some c -> nth_error (lvals L r) i = Some v -> means eid L c r v
  | mn_feat f i : calculated f -> fentity f = eid -> nth_error (fnames f) i = Some c -> means eid L c r (nth i (sem f r) VNull).

  Lemma ident_column f e c i r : calculated f -> es_get es (fentity f) = Ok e -> nth_error (fnames f) i = Some c -> In c (cols (e_df e)) ->
    nth i (sem f r) VNull = cell c r.
  Proof.
    intros Hf He Hi Hc. assert (is_ident f) as Hid. { apply (cn_variables es fs Hcn f e c Hf He); [eapply nth_error_In; exact Hi | exact Hc]. }
    destruct f as [e0 v nm|r0 b nm|p bs path u wh prev nm|p bs nm|p bs g nm|b k nm]; cbn in Hid; try contradiction.
    pose proof (cn_identity es fs Hcn e0 v nm (proj1 Hf)) as En. rewrite (single_names _ (FIdent e0 v nm) eq_refl), En in Hi.
    destruct i as [|i]; [|destruct i; discriminate]. injection Hi as <-. cbn [sem_with]. rewrite (given_none (FIdent e0 v nm) (fun x => x)). reflexivity.
  Qed.

  Lemma link_last r P L c i v : nth_error (lnames ((r, P) :: L)) i = Some (r_cv r) -> i = List.length (lnames L) ->
    nth_error (lvals ((r, P) :: L) c) i = Some v -> v = cell (r_cv r) c.
  Proof.
    intros _ -> Hv. cbn [lvals] in Hv.
    assert (List.length (match row_with (r_pv r) (cell (r_cv r) c) P with Some m => lvals L m | None => map (fun _ => VNull) (lnames L) end) = List.length (lnames L)) as El.
    { destruct (row_with _ _ _); [apply lvals_length | apply map_length]. }
    rewrite nth_error_app2 in Hv by lia. rewrite El, Nat.sub_diag in Hv. injection Hv as <-. reflexivity.
  Qed.

  Lemma means_link_raw eid e L c i v r : lvl_ok eid L -> es_get es eid = Ok e -> In c (cols (e_df e)) ->
    nth_error (lnames L) i = Some c -> nth_error (lvals L r) i = Some v -> v = cell c r.
  Proof.
    intros HL He Hc Hi Hv. destruct (lnames_at eid L HL i c Hi) as [(r0 & P & L' & -> & -> & -> & Hr & E)|Hl].
    - eapply link_last; [exact Hi | reflexivity | exact Hv].
    - exfalso. eapply link_not_raw; eassumption.
  Qed.

  (** when no feature looks at the full entity, the rows of a node belong to rows of its parents *)
  Fixpoint fit (L : level) (r : row) : Prop :=
    match L with
    | [] => True
    | (r0, P) :: L' => exists m, row_with (r_pv r0) (cell (r_cv r0) r) P = Some m /\ row_with (r_pv r0) (cell (r_cv r0) r) (R (r_pe r0)) = Some m /\ fit L' m
    end.
  Definition fits (L : level) (r : row) : Prop := (forall g, calculated g -> uses_full g = false) -> fit L r.

  Lemma direct_names r b : ~ is_slice b -> fnames (FDirect r b None) = map (link_name rels r) (fnames b).
  Proof.
    intros Hs. unfold M_Feature.fnames. cbn [fnaming snd or_given]. unfold link_name, edges_name. cbn [map String.concat fst snd].
    destruct (Nat.eqb_spec (fnout b) 1) as [E|E].
    - pose proof (single_names rels b E) as H. unfold M_Feature.fnames in H. rewrite H. reflexivity.
    - rewrite String.eqb_refl. reflexivity.
  Qed.

  (** a feature with the name of a link column copies that column *)
  Lemma link_feat L : forall eid, lvl_ok eid L -> forall r, fit L r -> forall i c v f j, nth_error (lnames L) i = Some c -> nth_error (lvals L r) i = Some v ->
    calculated f -> fentity f = eid -> nth_error (fnames f) j = Some c -> v = nth j (sem f r) VNull /\ fdefault f = VNull.
  Proof.
    induction L as [|[r1 P] L' IH]; intros eid HL r Hfit i c v f j Hi Hv Hf He Hj; [destruct i; discriminate|].
    destruct (lnames_cases eid _ HL i c Hi) as [(r0 & P' & L0 & E0 & -> & Ei & Hr & E)|(r0 & P' & L0 & c' & E0 & E & -> & Hi' & Hl)].
    - injection E0 as <- <- <-. rewrite E in He. destruct (child_get r1 Hr) as (e & Hg). rewrite <- He in Hg.
      assert (In (r_cv r1) (cols (e_df e))) as Hc by (rewrite He in Hg; apply (child_link r1 e Hr Hg)).
      assert (is_ident f) as Hid by (apply (cn_variables es fs Hcn f e (r_cv r1) Hf Hg); [eapply nth_error_In; exact Hj | exact Hc]).
      split; [|destruct f; try contradiction; reflexivity]. rewrite (ident_column f e (r_cv r1) j r Hf Hg Hj Hc). eapply link_last; [exact Hi | exact Ei | exact Hv].
    - injection E0 as <- <- <-. destruct (proj2 (cn_links es fs Hcn r1 c' Hl) f Hf) as [(b & -> & Eb & Hb) _]; [congruence | eapply nth_error_In; exact Hj|].
      assert (calculated b) as Cb. { destruct Hf as [(f0 & Hf0 & Hr0) _]. split; [|exact Hb]. exists f0. split; [exact Hf0|]. clear -Hr0. remember (FDirect r1 b None) as s eqn:Es. revert Es.
        induction Hr0 as [f|f d g Hd Hr IH]; intros ->; [|eapply reaches_dep; [exact Hd | apply IH; reflexivity]]. eapply reaches_dep; [|apply reaches_refl]. cbn. auto. }
      rewrite (direct_names r1 b Hb) in Hj. apply nth_error_map_Some in Hj as (c2 & Hj & Ec). unfold link_name in Ec. apply app_inj_l in Ec. apply (app_inj_l ".") in Ec. subst c2.
      inversion HL as [|r' P0 L'' Hr1 HL' HP Ee]; subst. destruct Hfit as (m & Em & ER & Hm). cbn [lvals] in Hv. rewrite Em in Hv. rewrite nth_error_app1 in Hv by (rewrite lvals_length; eapply nth_error_len; exact Hi').
      destruct (IH (r_pe r1) HL' m Hm i c' v b j Hi' Hv Cb Eb Hj) as [-> Hd]. cbn [fdefault]. split; [|exact Hd]. cbn [sem_with]. rewrite (given_none (FDirect r1 b None)) by (intros []).
      rewrite ER.
      rewrite Hd. clear. rewrite <- (map_id (sem b m)) at 1. f_equal. apply map_ext. intros x. unfold or_default. destruct x; reflexivity.
  Qed.
  Lemma means_link_feat eid L c i v f j r : lvl_ok eid L -> fits L r -> nth_error (lnames L) i = Some c -> nth_error (lvals L r) i = Some v ->
    calculated f -> fentity f = eid -> nth_error (fnames f) j = Some c -> v = nth j (sem f r) VNull.
  Proof.
    intros HL Hfit Hi Hv Hf He Hj. destruct (lnames_cases eid L HL i c Hi) as [(r0 & P & L' & -> & -> & Ei & Hr & E)|(r0 & P & L' & c' & EL & E & Ec & _ & Hl)].
    - rewrite E in He. destruct (child_get r0 Hr) as (e & Hg). rewrite <- He in Hg.
      rewrite (ident_column f e (r_cv r0) j r Hf Hg Hj); [eapply link_last; [exact Hi | exact Ei | exact Hv]|].
      rewrite He in Hg. apply (child_link r0 e Hr Hg).
    - destruct (proj2 (cn_links es fs Hcn r0 c' Hl) f Hf) as [_ Hno]; [congruence | rewrite <- Ec; eapply nth_error_In; exact Hj|].
      apply (link_feat L eid HL r (Hfit Hno) i c v f j Hi Hv Hf He Hj).
  Qed.

  Lemma means_fun eid L c r v w : lvl_ok eid L -> fits L r -> means eid L c r v -> means eid L c r w -> v = w.
  Proof.
    intros HL Hfit [e He Hc|i v' Hi Hv|f i Hf He Hi] [e' He' Hc'|j w' Hj Hw'|g j Hg He' Hj].
    - reflexivity.
    - symmetry. apply (means_link_raw eid e L c j w' r HL He Hc Hj Hw').
    - symmetry. apply (ident_column g e c j r Hg); [rewrite He'; exact He | exact Hj | exact Hc].
    - apply (means_link_raw eid e' L c i v' r HL He' Hc' Hi Hv).
    - assert (i = j) as -> by (eapply lnames_inj; eassumption). congruence.
    - eapply means_link_feat; eassumption.
    - apply (ident_column f e' c i r Hf); [rewrite He; exact He' | exact Hi | exact Hc'].
    - symmetry. eapply means_link_feat; eassumption.
    - destruct (cn_columns es fs Hcn f g i j c Hf Hg) as [<- <-]; try congruence.
  Qed.

  (** ** frames whose cells hold the meaning of their columns *)
  Definition sees_row (eid : string) (L : level) (cs : list string) (x r : row) : Prop :=
    fits L r /\ (forall c, In c cs -> means eid L c r (cell c x)) /\ (forall c, ~ In c cs -> cell c x = VNull).
  Definition sees (eid : string) (L : level) (d : df) (rs : list row) : Prop :=
    In (index_of es eid) (cols d) /\ Forall2 (sees_row eid L (cols d)) (rows d) rs.

  Lemma sr_cell eid L cs x r c v : lvl_ok eid L -> sees_row eid L cs x r -> In c cs -> means eid L c r v -> cell c x = v.
  Proof. intros HL (Hfit & H & _) Hc Hm. eapply means_fun; [exact HL | exact Hfit | apply H; exact Hc | exact Hm]. Qed.

  Lemma sr_raw eid L e cs x r c : lvl_ok eid L -> es_get es eid = Ok e -> sees_row eid L cs x r -> In c cs -> In c (cols (e_df e)) -> cell c x = cell c r.
  Proof. intros HL He Hs Hc Hr. eapply sr_cell; [exact HL | exact Hs | exact Hc | econstructor; eassumption]. Qed.

  Lemma sr_feat eid L cs x r f i c : lvl_ok eid L -> sees_row eid L cs x r -> calculated f -> fentity f = eid ->
    nth_error (fnames f) i = Some c -> In c cs -> cell c x = nth i (sem f r) VNull.
  Proof. intros HL Hs Hf He Hi Hc. eapply sr_cell; [exact HL | exact Hs | exact Hc | eapply mn_feat; eassumption]. Qed.

  Lemma sees_row_cols eid L cs cs' x r : (forall c, In c cs' <-> In c cs) -> sees_row eid L cs x r -> sees_row eid L cs' x r.
  Proof. intros H (H0 & H1 & H2). split; [exact H0|]. split; [intros c Hc; apply H1, H, Hc | intros c Hc; apply H2; intros Hc'; apply Hc, H, Hc']. Qed.

  Lemma sees_row_step eid L cs cs' new x x' r : sees_row eid L cs x r -> (forall c, In c cs' <-> In c cs \/ In c new) ->
    (forall c, ~ In c new -> cell c x' = cell c x) -> (forall c, In c new -> means eid L c r (cell c x')) -> sees_row eid L cs' x' r.
  Proof.
    intros (H0 & H1 & H2) Hcs Ho Hn. split; [exact H0|]. split.
    - intros c Hc. destruct (in_dec string_dec c new) as [Hi|Hi]; [apply Hn; exact Hi|]. rewrite (Ho c Hi). apply H1. apply Hcs in Hc as [Hc|Hc]; [exact Hc | contradiction].
    - intros c Hc. rewrite Ho; [apply H2|]; intros Hx; apply Hc, Hcs; auto.
  Qed.

  Lemma sees_length eid L d rs : sees eid L d rs -> List.length (rows d) = List.length rs.
  Proof. intros [_ H]. eapply Forall2_length'; exact H. Qed.

  Lemma sees_col eid L d rs c (h : row -> val) : sees eid L d rs ->
    (forall x r, In r rs -> sees_row eid L (cols d) x r -> cell c x = h r) -> map (cell c) (rows d) = map h rs.
  Proof. intros [_ H] Hh. apply Forall2_map_eq. eapply Forall2_impl; [|exact H]. intros x r _ Hr Hs. apply Hh; assumption. Qed.

  Lemma sees_index eid e L d rs : lvl_ok eid L -> es_get es eid = Ok e -> sees eid L d rs ->
    Forall2 (fun x r => cell (e_index e) x = cell (e_index e) r) (rows d) rs.
  Proof.
    intros HL He [Hi H]. rewrite (index_of_eq _ _ He) in Hi. eapply Forall2_impl; [|exact H]. intros x r _ _ Hs.
    eapply sr_raw; [exact HL | exact He | exact Hs | exact Hi|]. exact (proj1 (proj2 (proj1 (ent_good _ _ He)))).
  Qed.

  Lemma sees_filter eid L d rs p q : sees eid L d rs -> (forall x r, In x (rows d) -> sees_row eid L (cols d) x r -> p x = q r) ->
    sees eid L (filter_df p d) (filter q rs).
  Proof. intros [Hi H] Hpq. split; [exact Hi|]. cbn [filter_df rows cols]. apply Forall2_filter; assumption. Qed.

  (** ** single columns *)
  Lemma assign_cols_sees eid L nvs : forall d d' rs, sees eid L d rs ->
    foldM (fun d nv => assign_col d (fst nv) (snd nv)) nvs d = Ok d' ->
    (forall n vs, In (n, vs) nvs -> List.length vs = List.length rs -> forall k r, nth_error rs k = Some r -> means eid L n r (nth k vs VNull)) ->
    sees eid L d' rs /\ (forall c, In c (cols d') <-> In c (cols d) \/ In c (map fst nvs)).
  Proof.
    induction nvs as [|[n vs] nvs IH]; intros d d' rs Hs H Hm; cbn [foldM] in H.
    - injection H as <-. split; [exact Hs|]. intros c. cbn. tauto.
    - apply bind_Ok in H as (d1 & Hd1 & H). unfold assign_col in Hd1. cbn [fst snd] in Hd1.
      destruct (Nat.eqb_spec (List.length vs) (List.length (rows d))) as [El|]; [|discriminate]. injection Hd1 as <-.
      pose proof (sees_length _ _ _ _ Hs) as Elr. destruct Hs as [Hi Hs].
      assert (sees eid L (mkDf (add_col n (cols d)) (map (fun rv => dset String.eqb n (snd rv) (fst rv)) (combine (rows d) vs))) rs) as Hs1.
      { split; cbn [cols rows]; [apply add_col_In; auto|].
        apply Forall2_nth; [rewrite map_length, combine_length; lia|]. intros k a b Ha Hb. apply nth_error_map_Some in Ha as ([x v] & Ha & ->). cbn [fst snd].
        destruct (nth_error_ex (rows d) k) as (x' & Hx'). { apply nth_error_len in Hb. lia. }
        assert (nth_error vs k = Some v /\ x = x') as [Hv ->].
        { clear -Ha Hx'. revert vs k Ha Hx'. induction (rows d) as [|y l IH]; intros [|w vs] [|k] Ha Hx'; cbn in *; try discriminate; [split; congruence | eauto]. }
        pose proof (Forall2_nth_error _ _ _ _ _ _ Hs Hx' Hb) as Hsr.
        eapply sees_row_step with (new := [n]); [exact Hsr | | |].
        - intros c. rewrite add_col_In. cbn. intuition congruence.
        - intros c Hc. apply cell_dset_other. intros ->. apply Hc. left; reflexivity.
        - intros c [<-|[]]. rewrite cell_dset_same. rewrite <- (nth_error_nth' vs k v VNull Hv). apply Hm; [left; reflexivity | lia | exact Hb]. }
      destruct (IH _ _ rs Hs1 H) as [H1 H2].
      + intros n' vs' Hin. apply Hm. right; exact Hin.
      + split; [exact H1|]. intros c. rewrite H2. cbn [cols map fst In]. rewrite add_col_In. intuition congruence.
  Qed.

  Lemma assign_scalars_cols (ns : list string) (v : val) : forall d,
    rows (fold_left (fun d n => assign_scalar d n v) ns d) = map (fun x => fold_left (fun x n => dset String.eqb n v x) ns x) (rows d) /\
    (forall c, In c (cols (fold_left (fun d n => assign_scalar d n v) ns d)) <-> In c (cols d) \/ In c ns).
  Proof.
    induction ns as [|n ns IH]; intros d; cbn [fold_left].
    - split; [rewrite map_id; reflexivity | intros c; cbn; tauto].
    - destruct (IH (assign_scalar d n v)) as [H1 H2]. split.
      + rewrite H1. cbn [assign_scalar rows]. rewrite map_map. reflexivity.
      + intros c. rewrite H2. cbn [assign_scalar cols]. rewrite add_col_In. cbn [In]. intuition congruence.
  Qed.

  Lemma cell_dsets ns v : forall x c, cell c (fold_left (fun x n => dset String.eqb n v x) ns x) = if mem_str c ns then v else cell c x.
  Proof.
    induction ns as [|n ns IH]; intros x c; cbn [fold_left]; [reflexivity|]. rewrite IH, cell_dset. cbn [mem_str existsb].
    change (existsb (String.eqb c) ns) with (mem_str c ns). destruct (String.eqb c n), (mem_str c ns); reflexivity.
  Qed.

  (** ** the inputs of a feature *)
  Hypothesis Hwt : forall f, needed fs f -> wt rels f.

  Lemma slice_base b n nm : needed fs (FSlice b n nm) -> calculated b /\ n < fnout b /\ fname (FSlice b n nm) = nth n (fnames b) ""%string /\ nth_error (fnames b) n = Some (nth n (fnames b) ""%string).
  Proof.
    intros H. pose proof (cn_slices es fs Hcn b n nm H) as ->. pose proof (Hwt _ H) as Hw'. inversion Hw' as [| | | | |b' n' nm' Hb Hn H1]; subst.
    split; [split|split; [exact Hn|split]].
    - destruct H as (f0 & Hf0 & Hr). exists f0. split; [exact Hf0|]. clear -Hr. remember (FSlice b n None) as s eqn:E. revert E.
      induction Hr as [f|f d g Hd Hr IH]; intros ->; [|eapply reaches_dep; [exact Hd | apply IH; reflexivity]].
      eapply reaches_dep; [|apply reaches_refl]. cbn. auto.
    - intros Hs. destruct b; cbn [is_slice fnout] in *; try contradiction. lia.
    - reflexivity.
    - apply nth_error_nth'' . rewrite fnaming_len. exact Hn.
  Qed.

  Lemma base_cell eid L cs x r b : lvl_ok eid L -> sees_row eid L cs x r -> needed fs b -> fentity b = eid -> fnout b = 1 -> In (fname b) cs ->
    cell (fname b) x = hd VNull (sem b r).
  Proof.
    intros HL Hs Hb He Hn Hc.
    assert (is_slice b \/ ~ is_slice b) as [Hsl|Hsl] by (destruct b; cbn; auto).
    - destruct b as [| | | | |b k nm]; cbn in Hsl; try contradiction. destruct (slice_base b k nm Hb) as (Hcb & Hk & En & Hne).
      rewrite En in *. cbn [sem_with]. rewrite given_none by (intros []). cbn [hd]. eapply sr_feat; [exact HL | exact Hs | exact Hcb | exact He | exact Hne | exact Hc].
    - rewrite (sr_feat eid L cs x r b 0 (fname b) HL Hs (conj Hb Hsl) He); [destruct (sem b r); reflexivity | rewrite (single_names _ b Hn); reflexivity | exact Hc].
  Qed.

  Lemma base_column eid L d rs b vs : lvl_ok eid L -> sees eid L d rs -> needed fs b -> fentity b = eid -> fnout b = 1 -> column d (fname b) = Ok vs ->
    vs = map (fun r => hd VNull (sem b r)) rs.
  Proof.
    intros HL Hs Hb He Hn Hc. apply column_Ok in Hc as [Hc ->]. eapply sees_col; [exact Hs|]. intros x r _ Hx. eapply base_cell; eassumption.
  Qed.

  Lemma base_columns eid L d rs bs vss : lvl_ok eid L -> sees eid L d rs -> (forall b, In b bs -> needed fs b /\ fentity b = eid /\ fnout b = 1) ->
    mapM (column d) (map fname bs) = Ok vss -> vss = map (fun b => map (fun r => hd VNull (sem b r)) rs) bs.
  Proof.
    intros HL Hs. revert vss. induction bs as [|b bs IH]; intros vss Hb H; cbn [map mapM] in H; [injection H as <-; reflexivity|].
    apply bind_Ok in H as (vs & Hvs & H). apply bind_Ok in H as (vss' & Hvss & H). injection H as <-. cbn [map]. f_equal.
    - destruct (Hb b (or_introl eq_refl)) as (H1 & H2 & H3). eapply base_column; eassumption.
    - apply IH; [|exact Hvss]. intros b' Hb'. apply Hb. right; exact Hb'.
  Qed.
End Value1.
