(** C32, C33: one-hot encoding. *)
From Verif Require Import Base BaseFacts M_Schema M_Feature M_Select M_Encode S_Select S_Encode P_Select L_Encode.
Local Open Scope string_scope.
Local Open Scope list_scope.

Section Encode.
  Variables (rels : list relationship) (discrete : feat -> bool) (vleb : val -> val -> bool).
  Variables (top : top_n_arg) (unknown drop_first : bool) (to_encode : option (list string)).
  Variables (m m' : fmatrix) (fs fs' : list feat).
  Let fn := fname rels.
  Hypothesis done : encode_features rels discrete vleb top unknown drop_first to_encode m fs = Ok (m', fs').
  Hypothesis clear : clear_names rels discrete to_encode m fs.
  (** every feature has at least one column *)
  Hypothesis outs : forall f, In f fs -> 1 <= fnout f.

  Let ne := not_encoded rels discrete to_encode.
  Let adds' := adds rels discrete vleb top unknown drop_first to_encode m.
  Let feats' := feats rels discrete vleb top unknown drop_first to_encode m.
  Let labels' := labels rels vleb top drop_first m.
  Let pass := filter (fun c => negb (mem_str c (flat_map (fnames rels) fs))) (map fst m).

  Lemma ne_spec f : ne f = false <-> is_encoded rels discrete to_encode f.
  Proof.
    unfold ne, not_encoded, is_encoded. clear. rewrite !orb_false_iff, Nat.ltb_ge, negb_false_iff. split.
    - intros [[H1 H2] H3]. repeat split; auto. intros l ->. apply negb_false_iff in H3. apply mem_str_In in H3. exact H3.
    - intros (H1 & H2 & H3). repeat split; auto. destruct to_encode as [l|]; [|reflexivity]. apply negb_false_iff, mem_str_In, H3. reflexivity.
  Qed.
  Lemma fn_in f : In f fs -> ne f = false -> In (fn f) (fnames rels f).
  Proof.
    intros Hf H. apply ne_spec in H as [H _]. pose proof (outs f Hf). pose proof (single_names rels f) as Hs. unfold fn. rewrite Hs by lia. left; reflexivity.
  Qed.

  Lemma new_split n : In n (map fst (flat_map adds' fs)) -> In n (flat_map (new_names rels m) (filter (fun f => negb (ne f)) fs)).
  Proof.
    intros H. apply in_map_iff in H as ([n' c] & E & H). cbn in E; subst n'. apply in_flat_map in H as (f & Hf & H). apply (in_map fst) in H. cbn in H.
    apply (adds_names rels discrete vleb top unknown drop_first to_encode m f) in H. fold ne in H. apply in_flat_map. exists f. destruct (ne f) eqn:E; [destruct H|].
    split; [apply filter_In; split; [exact Hf | rewrite E; reflexivity] | exact H].
  Qed.
  Lemma adds_all_NoDup l : NoDup (flat_map (new_names rels m) (filter (fun f => negb (ne f)) l)) -> NoDup (map fst (flat_map adds' l)).
  Proof.
    induction l as [|f l IH]; intros H; [constructor|]. cbn [flat_map]. rewrite map_app. apply NoDup_app_iff. cbn [filter] in H.
    assert (forall n, In n (map fst (flat_map adds' l)) -> In n (flat_map (new_names rels m) (filter (fun f => negb (ne f)) l))) as Hincl.
    { clear. intros n H. apply in_map_iff in H as ([n' c] & E & H). cbn in E; subst n'. apply in_flat_map in H as (f & Hf & H). apply (in_map fst) in H. cbn in H.
      apply (adds_names rels discrete vleb top unknown drop_first to_encode m f) in H. fold ne in H. apply in_flat_map. exists f. destruct (ne f) eqn:E; [destruct H|].
      split; [apply filter_In; split; [exact Hf | rewrite E; reflexivity] | exact H]. }
    pose proof (adds_NoDup rels discrete vleb top unknown drop_first to_encode m f) as Hf. pose proof (adds_names rels discrete vleb top unknown drop_first to_encode m f) as Hg. fold ne adds' in Hf, Hg.
    destruct (ne f) eqn:E; cbn [negb] in H.
    - split; [apply Hf; constructor|]. split; [apply IH; exact H|]. intros x Hx. destruct (Hg x Hx).
    - cbn [flat_map] in H. apply NoDup_app_iff in H as (Ha & Hb & Hd). split; [apply Hf; exact Ha|]. split; [apply IH; exact Hb|].
      intros x Hx Hx2. apply (Hd x); [apply Hg; exact Hx | apply Hincl; exact Hx2].
  Qed.

  Lemma result_spec :
    fs' = flat_map feats' fs /\
    map fst m' = flat_map (fnames rels) fs' ++ pass /\
    (forall n, In n (map fst m') -> dget String.eqb n m' = found rels discrete vleb top unknown drop_first to_encode m fs n).
  Proof.
    pose proof done as H. destruct clear as [Hn Hc]. apply NoDup_app_iff in Hc as (Hm & Hnew & Hdis). unfold encode_features in H.
    destruct (forallb _ (flat_map (fnames rels) fs)) eqn:Hall; cbn [negb] in H; [|discriminate]. apply bind_Ok in H as (s & Hs & H).
    destruct (forallb (fun n => mem_str n (map fst (e_X s))) (e_cols s ++ _)) eqn:Hcols in H; [|discriminate]. injection H as Em Ef.
    rewrite forallb_forall in Hall, Hcols.
    destruct (run_spec rels discrete vleb top unknown drop_first to_encode m fs [] (mkEnc m [] []) s) as (A & B & C & D); try exact Hs; cbn [app e_X e_feats e_cols] in *.
    - exact Hn.
    - intros n Hi. apply Hall in Hi. apply mem_str_In in Hi. exact Hi.
    - apply adds_all_NoDup. exact Hnew.
    - intros n Hi Hin. apply (Hdis n Hin). apply new_split. exact Hi.
    - apply fn_in.
    - intros n. reflexivity.
    - exact Hm.
    - rewrite <- Em, <- Ef. split; [exact A|]. destruct (select_known (e_cols s ++ pass) (e_X s) D) as [E F].
      { intros n Hi. apply Hcols in Hi. apply mem_str_In in Hi. exact Hi. }
      unfold pass in E, F. unfold pass. rewrite E. split; [rewrite B, <- A; reflexivity|]. intros n Hi. rewrite F by exact Hi. apply C.
  Qed.

  Lemma feats_cols f : In f fs -> ne f = false -> flat_map (fnames rels) (feats' f) = map fst (adds' f).
  Proof.
    intros Hf E. pose proof (feats_names rels discrete vleb top unknown drop_first to_encode m f) as H. fold ne feats' adds' in H. rewrite E in H. apply H.
    pose proof (proj1 (ne_spec f) E) as [H1 _]. pose proof (outs f Hf). pose proof (single_names rels f) as Hs. rewrite Hs by lia. constructor; [intros [] | constructor].
  Qed.

  Lemma added_found f n c : In f fs -> In (n, c) (adds' f) -> ne f = false -> dget String.eqb n m' = Some c.
  Proof.
    intros Hf Hi E. destruct result_spec as (Hfs & Hcols & Hget). destruct clear as [Hn Hc]. apply NoDup_app_iff in Hc as (Hm & Hnew & Hdis).
    assert (In n (map fst (flat_map adds' fs))) as Hin by (apply in_map_iff; exists (n, c); split; [reflexivity | apply in_flat_map; eauto]).
    rewrite Hget.
    - unfold found. assert (mem_str n (flat_map (drops rels discrete to_encode) fs) = false) as ->.
      { apply mem_str_nIn. intros Hx. apply in_flat_map in Hx as (d & Hd & Hx). unfold drops in Hx. fold ne in Hx. destruct (ne d) eqn:Ed; [destruct Hx|]. destruct Hx as [<-|[]].
        apply (Hdis (fname rels d)); [|apply new_split; exact Hin]. unfold encode_features in done. destruct (forallb _ (flat_map (fnames rels) fs)) eqn:Hall in done; [|discriminate].
        rewrite forallb_forall in Hall. apply mem_str_In, Hall. apply in_flat_map. exists d. split; [exact Hd | apply fn_in; assumption]. }
      fold adds'. rewrite (dget_NoDup_In _ String.eqb_spec n c (flat_map adds' fs)); [reflexivity | apply adds_all_NoDup; exact Hnew | apply in_flat_map; eauto].
    - rewrite Hcols, Hfs. apply in_or_app; left. apply in_flat_map.
      assert (In n (flat_map (fnames rels) (feats' f))) as Hx by (rewrite feats_cols by assumption; apply in_map_iff; exists (n, c); auto).
      apply in_flat_map in Hx as (g & Hg & Hx). exists g. split; [apply in_flat_map; exists f; auto | exact Hx].
  Qed.

  Lemma kept_found n : In n (map fst m) -> (forall f, In f fs -> ne f = false -> fn f <> n) ->
    In n (map fst m') -> dget String.eqb n m' = dget String.eqb n m.
  Proof.
    intros Hi Hk Hi'. destruct result_spec as (Hfs & Hcols & Hget). destruct clear as [Hn Hc]. apply NoDup_app_iff in Hc as (Hm & Hnew & Hdis).
    rewrite Hget by exact Hi'. unfold found. assert (mem_str n (flat_map (drops rels discrete to_encode) fs) = false) as ->.
    { apply mem_str_nIn. intros Hx. apply in_flat_map in Hx as (d & Hd & Hx). unfold drops in Hx. fold ne in Hx. destruct (ne d) eqn:Ed; [destruct Hx|]. destruct Hx as [Hx|[]]. apply (Hk d Hd Ed Hx). }
    fold adds'. rewrite (proj2 (dget_None _ String.eqb_spec n (flat_map adds' fs))); [reflexivity|]. intros Hx. apply (Hdis n Hi). apply new_split. exact Hx.
  Qed.

  Lemma ind_simple f l : In l (labels' f) -> ind rels m f l = map (fun v => VBool (val_eqb v l)) (col_of rels m f).
  Proof.
    intros Hl. apply labels_incl in Hl. apply values_spec in Hl as [_ Hl]. apply map_ext. intros v. destruct v; cbn [is_null negb andb]; try reflexivity. destruct l; [congruence | reflexivity ..].
  Qed.

  Lemma ordered_top col k l v : (forall a b, (vleb a b || vleb b a)%bool = true) -> (forall a b c, vleb a b = true -> vleb b c = true -> vleb a c = true) ->
    In l (head k (ordered_values vleb col)) -> In v col -> v <> VNull -> ~ In v (head k (ordered_values vleb col)) ->
    occurrences v col <= occurrences l col.
  Proof.
    intros Htot Htr Hl Hv Hnull Hnv. destruct (head_firstn k (ordered_values vleb col)) as (n & E). rewrite E in *. unfold ordered_values in *.
    assert (Sorted.StronglySorted (fun a b => count_geb vleb a b = true) (isort (count_geb vleb) (value_counts col))) as Hs.
    { apply isort_sorted.
      - intros a b. unfold count_geb. rewrite (Nat.eqb_sym (snd b)). destruct (snd a =? snd b)%nat eqn:E1; [pose proof (Htot (fst a) (fst b)) as Ht; apply orb_true_iff in Ht; tauto|].
        apply Nat.eqb_neq in E1. rewrite !Nat.leb_le. lia.
      - intros a b c. unfold count_geb. destruct (snd a =? snd b)%nat eqn:E1, (snd b =? snd c)%nat eqn:E2, (snd a =? snd c)%nat eqn:E3; rewrite ?Nat.eqb_eq, ?Nat.eqb_neq in *; rewrite ?Nat.leb_le; intros; try lia.
        eapply Htr; eauto. }
    assert (forall x, In x (value_counts col) -> snd x = occurrences (fst x) col) as Hocc.
    { intros x Hx. unfold value_counts in Hx. apply in_map_iff in Hx as (w & <- & _). reflexivity. }
    assert (forall x, In x (isort (count_geb vleb) (value_counts col)) -> snd x = occurrences (fst x) col) as Hocc'.
    { intros x Hx. apply Hocc. apply (Permutation_in _ (isort_perm (count_geb vleb) (value_counts col))). exact Hx. }
    assert (exists x, In x (isort (count_geb vleb) (value_counts col)) /\ fst x = v) as (xv & Hxv & Ev).
    { exists (v, occurrences v col). split; [|reflexivity]. apply (Permutation_in _ (Permutation_sym (isort_perm (count_geb vleb) (value_counts col)))). unfold value_counts. apply in_map_iff. exists v. split; [reflexivity|].
      change (In v (values col)). apply values_spec. auto. }
    rewrite firstn_map in Hl, Hnv. apply in_map_iff in Hl as (xl & El & Hxl).
    set (L := isort (count_geb vleb) (value_counts col)) in *. rewrite <- (firstn_skipn n L) in Hs, Hxv.
    assert (In xv (skipn n L)) as Hxv'.
    { apply in_app_iff in Hxv as [Hx|Hx]; [|exact Hx]. exfalso. apply Hnv. rewrite <- Ev. apply in_map. exact Hx. }
    assert (count_geb vleb xl xv = true) as Hg.
    { clear - Hs Hxl Hxv'. induction (firstn n L) as [|a l IH]; [destruct Hxl|]. cbn [app] in Hs. inversion Hs as [|? ? Hs1 Hs2]; subst. destruct Hxl as [->|Hx]; [|auto].
      rewrite Forall_forall in Hs2. apply Hs2. apply in_or_app; right; exact Hxv'. }
    assert (In xl L) as HxlL by (rewrite <- (firstn_skipn n L); apply in_or_app; left; exact Hxl).
    assert (In xv L) as HxvL by (rewrite <- (firstn_skipn n L); apply in_or_app; right; exact Hxv').
    rewrite <- El, <- Ev, <- (Hocc' xl HxlL), <- (Hocc' xv HxvL). unfold count_geb in Hg. destruct (snd xl =? snd xv)%nat eqn:E1; [apply Nat.eqb_eq in E1; lia | apply Nat.leb_le in Hg; exact Hg].
  Qed.

  Lemma true_count_labels v ls : NoDup ls ->
    true_count (map (fun l => VBool (val_eqb v l)) ls) = if mem_val v ls then 1 else 0.
  Proof.
    induction ls as [|l ls IH]; intros H; [reflexivity|]. inversion H; subst. specialize (IH H3). unfold true_count in *. cbn [map filter mem_val existsb].
    destruct (val_eqb_spec v l) as [->|Hd]; cbn [val_eqb Bool.eqb List.length orb].
    - rewrite IH. destruct (mem_val l ls) eqn:E; [|reflexivity]. apply mem_val_In in E. contradiction.
    - exact IH.
  Qed.

  (** C32: the columns made from an encoded feature.  With the unknown column exactly one of them is true in every row, the
      one of the row's value, or unknown; the labels are the most frequent values and as many as asked for. *)
  Theorem C32_one_hot_partial f col :
    In f fs -> is_encoded rels discrete to_encode f -> dget String.eqb (fname rels f) m = Some col ->
    exists labels,
      NoDup labels /\
      (forall l, In l labels -> In l col /\ l <> VNull) /\
      (forall l, In l labels -> dget String.eqb (label_name rels f l) m' = Some (map (fun v => VBool (val_eqb v l)) col)) /\
      (unknown = true -> dget String.eqb (unknown_name rels f) m' = Some (map (fun v => VBool (negb (mem_val v labels))) col)) /\
      (forall i v, nth_error col i = Some v ->
         let row := map (fun n => nth i (column m' n) VNull) (map (label_name rels f) labels ++ if unknown then [unknown_name rels f] else []) in
         if unknown then true_count row = 1 else true_count row <= 1) /\
      ((forall a b, (vleb a b || vleb b a)%bool = true) -> (forall a b c, vleb a b = true -> vleb b c = true -> vleb a c = true) ->
       forall l v, In l labels -> In v col -> v <> VNull -> ~ In v labels -> occurrences v col <= occurrences l col) /\
      (drop_first = false -> forall n, (top = TopInt (Z.of_nat n) \/ exists d, top = TopDict d /\ dget String.eqb (fname rels f) d = Some (Z.of_nat n)) ->
       List.length labels = Nat.min n (List.length (values col))) /\
      (drop_first = true -> forall n, top = TopInt (Z.of_nat n) -> 2 <= n -> 2 <= List.length (values col) ->
       List.length labels = Nat.min n (List.length (values col)) - 1).
  Proof.
    intros Hf He Hcol. pose proof (proj2 (ne_spec f) He) as Ene. exists (labels' f).
    assert (col_of rels m f = col) as Ecol by (unfold col_of, column; rewrite Hcol; reflexivity).
    assert (forall l, In l (labels' f) -> dget String.eqb (label_name rels f l) m' = Some (map (fun v => VBool (val_eqb v l)) col)) as Hlab.
    { intros l Hl. apply (added_found f); [exact Hf| | exact Ene]. unfold adds', adds. fold ne. rewrite Ene. apply in_or_app; left.
      apply in_map_iff. exists l. split; [|exact Hl]. rewrite ind_simple, Ecol by exact Hl. reflexivity. }
    assert (unknown = true -> dget String.eqb (unknown_name rels f) m' = Some (map (fun v => VBool (negb (mem_val v (labels' f)))) col)) as Hun.
    { intros Hu. apply (added_found f); [exact Hf| | exact Ene]. unfold adds', adds. fold ne. rewrite Ene. apply in_or_app; right.
      rewrite Hu. left. unfold unk. rewrite Ecol. reflexivity. }
    split; [apply labels_NoDup|]. split.
    { intros l Hl. apply labels_incl in Hl. rewrite Ecol in Hl. apply values_spec in Hl. exact Hl. }
    split; [exact Hlab|]. split; [exact Hun|]. split; [|split; [|split]].
    - intros i v Hi row. assert (map (fun n => nth i (column m' n) VNull) (map (label_name rels f) (labels' f)) = map (fun l => VBool (val_eqb v l)) (labels' f)) as El.
      { rewrite map_map. apply map_ext_in. intros l Hl. unfold column. rewrite (Hlab l Hl). apply nth_error_nth. rewrite nth_error_map, Hi. reflexivity. }
      assert (true_count (map (fun n => nth i (column m' n) VNull) (map (label_name rels f) (labels' f))) = if mem_val v (labels' f) then 1 else 0) as Ec.
      { rewrite El. apply true_count_labels. apply labels_NoDup. }
      unfold row. destruct unknown eqn:Eu.
      + rewrite map_app. cbn [map]. assert (nth i (column m' (unknown_name rels f)) VNull = VBool (negb (mem_val v (labels' f)))) as ->.
        { unfold column. rewrite (Hun eq_refl). apply nth_error_nth. rewrite nth_error_map, Hi. reflexivity. }
        unfold true_count in *. rewrite filter_app, app_length, Ec. cbn [filter val_eqb]. destruct (mem_val v (labels' f)); reflexivity.
      + rewrite app_nil_r, Ec. destruct (mem_val v (labels' f)); lia.
    - intros Htot Htr l v. unfold labels', labels. rewrite Ecol. destruct (select_n _ _ _ _) as [k|]; [|intros []]. apply ordered_top; assumption.
    - intros Hd n Hn. unfold labels', labels. rewrite Ecol, Hd. unfold select_n.
      assert (List.length (head (Z.of_nat n) (ordered_values vleb col)) = Nat.min n (List.length (values col))) as E.
      { unfold head. destruct (Z.leb_spec 0 (Z.of_nat n)); [|lia]. rewrite firstn_length, Nat2Z.id, (Permutation_length (ordered_perm vleb col)). reflexivity. }
      destruct Hn as [Hn|(d & Hn & Hd2)]; rewrite Hn; [exact E|]. rewrite Hd2. exact E.
    - intros Hd n Hn H2 H3. unfold labels', labels. rewrite Ecol, Hd, Hn. unfold select_n, value_counts. rewrite map_length. fold (values col).
      unfold head. rewrite (proj2 (Z.leb_le 0 _)) by lia. rewrite firstn_length, (Permutation_length (ordered_perm vleb col)). lia.
  Qed.

  (** C33: the columns of the encoded matrix are those of the returned features followed by the columns that no feature owns,
      and every returned feature, computed from the original matrix, gives exactly its columns. *)
  Theorem C33_columns_partial :
    map fst m' = flat_map (fnames rels) fs' ++ filter (fun c => negb (mem_str c (flat_map (fnames rels) fs))) (map fst m).
  Proof. apply result_spec. Qed.

  Theorem C33_features_compute_columns_partial g :
    In g fs' -> exists cols, computes rels m g cols /\ Forall2 (fun n c => dget String.eqb n m' = Some c) (fnames rels g) cols.
  Proof.
    intros Hg. pose proof Hg as Hg0. destruct result_spec as (Hfs & Hcols & Hget). rewrite Hfs in Hg. apply in_flat_map in Hg as (f & Hf & Hg).
    unfold feats', feats in Hg. fold ne in Hg. destruct (ne f) eqn:Ene.
    - destruct Hg as [<-|[]].
      assert (forall n, In n (fnames rels f) -> exists c, dget String.eqb n m = Some c /\ dget String.eqb n m' = Some c) as H.
      { intros n Hn. pose proof done as Hd. unfold encode_features in Hd. destruct (forallb _ (flat_map (fnames rels) fs)) eqn:Hall in Hd; [|discriminate]. clear Hd.
        rewrite forallb_forall in Hall. assert (In n (map fst m)) as Hin by (apply mem_str_In, Hall; apply in_flat_map; eauto).
        assert (dget String.eqb n m' = dget String.eqb n m) as ->.
        { apply kept_found; [exact Hin| |rewrite Hcols; apply in_or_app; left; apply in_flat_map; eauto].
          intros d Hd Ed E. subst n. destruct clear as [Hnd _].
          assert (d <> f) as Hdf by (intros ->; congruence). apply Hdf. clear Hdf.
          assert (forall l, NoDup (flat_map (fnames rels) l) -> In d l -> In f l -> In (fn d) (fnames rels d) -> d = f) as Huniq.
          { clear - Hn. induction l as [|a l IH]; intros Hnd Hd Hf Hdd; [destruct Hd|]. cbn [flat_map] in Hnd. apply NoDup_app_iff in Hnd as (_ & H2 & H3).
            destruct Hd as [->|Hd], Hf as [->|Hf]; auto.
            - exfalso. apply (H3 (fn d) Hdd). apply in_flat_map. eauto.
            - exfalso. apply (H3 (fn d) Hn). apply in_flat_map. eauto. }
          apply (Huniq fs Hnd Hd Hf). apply fn_in; assumption. }
        destruct (dget String.eqb n m) as [c|] eqn:E; [eauto|]. apply (dget_None _ String.eqb_spec) in E. contradiction. }
      revert H. intros H. assert (exists cols, Forall2 (fun n c => dget String.eqb n m = Some c) (fnames rels f) cols /\ Forall2 (fun n c => dget String.eqb n m' = Some c) (fnames rels f) cols) as (cols & A & B).
      { clear - H. induction (fnames rels f) as [|n l IH]; [exists []; split; constructor|]. destruct IH as (cols & A & B); [intros x Hx; apply H; right; exact Hx|].
        destruct (H n (or_introl eq_refl)) as (c & Hc & Hc'). exists (c :: cols). split; constructor; assumption. }
      exists cols. split; [apply comp_stored; exact A | exact B].
    - assert (exists col, dget String.eqb (fn f) m = Some col) as (col & Hcol).
      { pose proof done as Hd. unfold encode_features in Hd. destruct (forallb _ (flat_map (fnames rels) fs)) eqn:Hall in Hd; [|discriminate]. clear Hd.
        rewrite forallb_forall in Hall. assert (In (fn f) (map fst m)) as Hin by (apply mem_str_In, Hall; apply in_flat_map; exists f; split; [exact Hf | apply fn_in; assumption]).
        destruct (dget String.eqb (fn f) m) as [c|] eqn:E; [eauto|]. apply (dget_None _ String.eqb_spec) in E. contradiction. }
      assert (col_of rels m f = col) as Ecol by (unfold col_of, column; fold fn; rewrite Hcol; reflexivity).
      assert (computes rels m f [col]) as Hbase.
      { apply comp_stored. pose proof (proj1 (ne_spec f) Ene) as [H1 _]. pose proof (outs f Hf). rewrite (single_names rels f) by lia. constructor; [exact Hcol | constructor]. }
      apply in_app_iff in Hg as [Hg|Hg].
      + apply in_map_iff in Hg as (l & <- & Hl). exists [map (fun v => VBool (negb (is_null v) && val_eqb v l)) col]. split.
        * apply (comp_transform rels m (p_eq l) [f] None [col]). constructor; [exact Hbase | constructor].
        * change (fnames rels (f_equals f l)) with [label_name rels f l]. constructor; [|constructor]. apply (added_found f); [exact Hf| |exact Ene].
          unfold adds', adds. fold ne. rewrite Ene. apply in_or_app; left. apply in_map_iff. exists l. split; [|exact Hl]. unfold ind. rewrite Ecol. reflexivity.
      + fold labels' in Hg. assert (unknown = true /\ f_unknown f (labels' f) (unknown_name rels f) = g) as [Eu <-] by (clear - Hg; destruct unknown; [destruct Hg as [Hg|[]]; auto | destruct Hg]).
        exists [map (fun v => VBool (negb (mem_val v (labels' f)))) col]. split.
        * assert (map (fun v => VBool (negb (mem_val v (labels' f)))) col = map (fun v => match v with VBool b => VBool (negb b) | v => v end) (map (fun v => VBool (mem_val v (labels' f))) col)) as -> by (rewrite map_map; reflexivity).
          apply (comp_transform rels m p_not [FTrans (p_isin (labels' f)) [f] None] (Some (unknown_name rels f)) [map (fun v => VBool (mem_val v (labels' f))) col]).
          constructor; [|constructor]. apply (comp_transform rels m (p_isin (labels' f)) [f] None [col]). constructor; [exact Hbase | constructor].
        * assert (fnames rels (f_unknown f (labels' f) (unknown_name rels f)) = [unknown_name rels f]) as ->.
          { unfold fnames, f_unknown, unknown_name. cbn [fnaming snd p_nout p_not Nat.eqb or_given]. destruct (fname rels f ++ " is unknown")%string eqn:E; [|reflexivity]. destruct (fname rels f); discriminate. }
          constructor; [|constructor]. apply (added_found f); [exact Hf| |exact Ene]. unfold adds', adds. fold ne. rewrite Ene. apply in_or_app; right. rewrite Eu. left. unfold unk. rewrite Ecol. reflexivity.
  Qed.

  (** columns of features that are not encoded, and columns that no feature owns, keep their data *)
  Theorem C33_other_columns_unchanged_partial n :
    In n (map fst m) -> (forall f, In f fs -> is_encoded rels discrete to_encode f -> fname rels f <> n) ->
    dget String.eqb n m' = dget String.eqb n m.
  Proof.
    intros Hi Hk. apply kept_found; [exact Hi | intros f Hf E; apply Hk; [exact Hf | apply ne_spec; exact E]|].
    destruct result_spec as (Hfs & Hcols & _). rewrite Hcols. apply in_or_app.
    destruct (mem_str n (flat_map (fnames rels) fs)) eqn:E.
    - left. apply mem_str_In in E. apply in_flat_map in E as (f & Hf & Hn). rewrite Hfs. apply in_flat_map. exists f. split; [|exact Hn]. apply in_flat_map. exists f. split; [exact Hf|].
      unfold feats', feats. fold ne. destruct (ne f) eqn:Ene; [left; reflexivity|]. exfalso.
      pose proof (proj1 (ne_spec f) Ene) as He. pose proof He as [H1 _]. pose proof (outs f Hf). rewrite (single_names rels f) in Hn by lia. destruct Hn as [Hn|[]]. apply (Hk f Hf He Hn).
    - right. apply filter_In. split; [exact Hi | rewrite E; reflexivity].
  Qed.
End Encode.

(** ** Concrete cases *)
Definition enc_a : feat := FIdent "t" "a" None.
Definition enc_b : feat := FIdent "t" "n" None.
Definition enc_m : fmatrix :=
  [("a", [VStr "x"; VStr "y"; VNull; VStr "x"; VStr "z"]); ("n", [VNum 1; VNum 2; VNum 3; VNum 4; VNum 5]); ("label", [VNum 0; VNum 1; VNum 0; VNum 1; VNum 0])].
Definition enc_discrete (f : feat) : bool := match f with FIdent _ v _ => String.eqb v "a" | _ => true end.
Definition enc_leb (a b : val) : bool := match a, b with VStr x, VStr y => match String.compare x y with Gt => false | _ => true end | VStr _, _ => false | _, _ => true end.

(** the hypotheses of C32 and C33 hold, and the result is the expected one *)
Example C32_nonvacuous : exists fs',
  encode_features [] enc_discrete enc_leb (TopInt 2) true false None enc_m [enc_a; enc_b] =
    Ok ([("a = x", [VBool true; VBool false; VBool false; VBool true; VBool false]);
         ("a = z", [VBool false; VBool false; VBool false; VBool false; VBool true]);
         ("a is unknown", [VBool false; VBool true; VBool true; VBool false; VBool false]);
         ("n", [VNum 1; VNum 2; VNum 3; VNum 4; VNum 5]); ("label", [VNum 0; VNum 1; VNum 0; VNum 1; VNum 0])], fs') /\
  clear_names [] enc_discrete None enc_m [enc_a; enc_b] /\
  is_encoded [] enc_discrete None enc_a /\ (forall f, In f [enc_a; enc_b] -> 1 <= fnout f).
Proof.
  eexists. split; [vm_compute; reflexivity|]. split; [|split].
  - split; vm_compute; repeat (constructor; [cbn; intuition discriminate|]); constructor.
  - repeat split; [cbn; lia | intros l H; discriminate].
  - intros f [<-|[<-|[]]]; cbn; lia.
Qed.

(** ** Refutations *)
(** drop_first with a dictionary of label numbers always fails on an encoded feature *)
Theorem C32_drop_first_dict_refuted rels discrete vleb d unknown m fs f :
  In f fs -> NoDup (flat_map (fnames rels) fs) -> is_encoded rels discrete None f -> 1 <= fnout f ->
  forall r, encode_features rels discrete vleb (TopDict d) unknown true None m fs <> Ok r.
Proof.
  intros Hf _ He Ho r H. unfold encode_features in H. destruct (forallb _ (flat_map _ _)); cbn [negb] in H; [|discriminate]. apply bind_Ok in H as (s & Hs & _).
  revert Hs. generalize (mkEnc m [] []) as s0. induction fs as [|g fs IH]; intros s0 Hs; [destruct Hf|]. cbn [foldM] in Hs. apply bind_Ok in Hs as (s1 & H1 & Hs).
  destruct Hf as [->|Hf]; [|apply (IH Hf s1 Hs)]. unfold encode_one in H1. rewrite (proj2 (ne_spec rels discrete None f) He) in H1.
  apply bind_Ok in H1 as (c & _ & H1). apply bind_Ok in H1 as (k & H1 & _). discriminate.
Qed.

(** two features whose labels spell the same column name share one column: the indicator of [a] for the label "b = c" is
    overwritten by the one of ["a = b"] for the label "c" *)
Definition clash_1 : feat := FIdent "t" "a" None.
Definition clash_2 : feat := FIdent "t" "a = b" None.
Theorem C32_same_name_refuted : exists m',
  encode_features [] (fun _ => true) enc_leb (TopInt 10) false false None
    [("a", [VStr "b = c"; VStr "b = c"]); ("a = b", [VStr "c"; VStr "d"])] [clash_1; clash_2] = Ok m' /\
  dget String.eqb (label_name [] clash_1 (VStr "b = c")) (fst m') = Some [VBool true; VBool false].
Proof. eexists. split; vm_compute; reflexivity. Qed.

(** a column the user kept beside the features is overwritten when it has the name of the unknown column *)
Theorem C33_other_column_overwritten_refuted : exists m',
  encode_features [] (fun _ => true) enc_leb (TopInt 10) true false None
    [("a", [VStr "x"; VNull]); ("a is unknown", [VNum 7; VNum 8])] [enc_a] = Ok m' /\
  dget String.eqb "a is unknown" (fst m') = Some [VBool false; VBool true].
Proof. eexists. split; vm_compute; reflexivity. Qed.

(** a feature listed twice makes the call fail *)
Theorem C33_repeated_feature_refuted :
  encode_features [] (fun _ => true) enc_leb (TopInt 10) true false None [("a", [VStr "x"; VNull])] [enc_a; enc_a] = Err KeyError.
Proof. vm_compute. reflexivity. Qed.

Print Assumptions C32_one_hot_partial.
Print Assumptions C33_columns_partial.
Print Assumptions C33_features_compute_columns_partial.
Print Assumptions C33_other_columns_unchanged_partial.
Print Assumptions C32_drop_first_dict_refuted.
Print Assumptions C32_same_name_refuted.
Print Assumptions C33_other_column_overwritten_refuted.
Print Assumptions C33_repeated_feature_refuted.
