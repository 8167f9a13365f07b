(** C51: cumulative transforms are per-group prefix aggregations. *)
From Coq Require Import QArith Qcanon.
From Verif Require Import Base BaseFacts M_Schema S_Schema M_Trie M_Table M_Query S_Query L_Query S_View L_View
  M_Feature M_FeatureSet M_Calc S_Calc S_Group S_Plan S_Sem S_Value L_Frame L_Value1 P_Select P_Value P_ValueUse M_Prims S_Prims X_Demo P_Group.
Local Open Scope Z_scope.

(** ** one column *)
Lemma scan_length op acc l : List.length (scan op acc l) = List.length l.
Proof. revert acc. induction l as [|[x|] l IH]; intros acc; cbn [scan List.length]; [reflexivity | f_equal; apply IH | f_equal; apply IH]. Qed.

(** the accumulator after a prefix *)
Definition after_op (op : Z -> Z -> Z) (acc : option Z) (l : list Z) : option Z :=
  fold_left (fun a x => Some (match a with Some y => op y x | None => x end)) l acc.

Lemma numbers_app a b : numbers (a ++ b) = numbers a ++ numbers b.
Proof. induction a as [|v a IH]; [reflexivity|]. cbn [numbers app]. rewrite IH. destruct (number_of v); reflexivity. Qed.
Lemma as_num_number v : as_num v = number_of v.
Proof. destruct v as [| |[|]|]; reflexivity. Qed.

Lemma scan_at op acc vs x rest :
  nth (List.length vs) (scan op acc (map as_num (vs ++ x :: rest))) None =
  match number_of x with Some z => after_op op acc (numbers (vs ++ [x])) | None => None end.
Proof.
  revert acc. induction vs as [|v vs IH]; intros acc.
  - cbn [List.length app map numbers]. rewrite as_num_number. destruct (number_of x); reflexivity.
  - cbn [List.length app map numbers]. rewrite as_num_number. destruct (number_of v) as [z|]; cbn [scan nth]; rewrite IH; reflexivity.
Qed.

Lemma nth_map_of_num k l : nth k (map of_num l) VNull = of_num (nth k l None).
Proof. change VNull with (of_num None). apply map_nth. Qed.

Lemma after_sum acc l : after_op Z.add (Some acc) l = Some (acc + total l).
Proof. revert acc. induction l as [|z l IH]; intros acc; unfold after_op; cbn [fold_left total]; [f_equal; lia|]. fold (after_op Z.add (Some (acc + z)) l). rewrite IH. f_equal. lia. Qed.
Lemma after_min acc l : exists z, after_op Z.min (Some acc) l = Some z /\ least z (acc :: l).
Proof.
  revert acc. induction l as [|y l IH]; intros acc.
  - exists acc. split; [reflexivity|]. split; [left; reflexivity|]. intros x [->|[]]. lia.
  - destruct (IH (Z.min acc y)) as (z & Hz & Hin & Hle). exists z. split; [exact Hz|]. split.
    + destruct Hin as [E|Hin]; [|right; right; exact Hin]. destruct (Z.min_spec acc y) as [[_ Em]|[_ Em]]; rewrite Em in E; [left | right; left]; exact E.
    + pose proof (Hle _ (or_introl eq_refl)). intros x [->|[->|Hx]]; [lia | lia | apply Hle; right; exact Hx].
Qed.
Lemma after_max acc l : exists z, after_op Z.max (Some acc) l = Some z /\ greatest z (acc :: l).
Proof.
  revert acc. induction l as [|y l IH]; intros acc.
  - exists acc. split; [reflexivity|]. split; [left; reflexivity|]. intros x [->|[]]. lia.
  - destruct (IH (Z.max acc y)) as (z & Hz & Hin & Hle). exists z. split; [exact Hz|]. split.
    + destruct Hin as [E|Hin]; [|right; right; exact Hin]. destruct (Z.max_spec acc y) as [[_ Em]|[_ Em]]; rewrite Em in E; [right; left | left]; exact E.
    + pose proof (Hle _ (or_introl eq_refl)). intros x [->|[->|Hx]]; [lia | lia | apply Hle; right; exact Hx].
Qed.

Lemma has_number vs x z : number_of x = Some z -> exists z0 l, numbers (vs ++ [x]) = z0 :: l.
Proof.
  intros E. rewrite numbers_app. cbn [numbers]. rewrite E. destruct (numbers vs) as [|z0 l]; cbn [app]; eauto.
Qed.

(** what a cumulative function returns in a row depends on the rows up to it *)
Definition prefix_function (f : list val -> list val) (P : list val -> val -> val -> Prop) : Prop :=
  (forall vs, List.length (f vs) = List.length vs) /\
  forall vs x rest, P vs x (nth (List.length vs) (f (vs ++ x :: rest)) VNull).

Lemma cum_sum_prefix : prefix_function cum_sum sum_upto.
Proof.
  split; [intros vs; unfold cum_sum; rewrite map_length, scan_length, map_length; reflexivity|]. intros vs x rest. unfold sum_upto, cum_sum.
  rewrite nth_map_of_num, scan_at. destruct (number_of x) as [z|] eqn:E; [|reflexivity]. destruct (has_number vs x z E) as (z0 & l & ->).
  unfold after_op. cbn [fold_left]. fold (after_op Z.add (Some z0) l). rewrite after_sum. reflexivity.
Qed.
Lemma cum_min_prefix : prefix_function cum_min min_upto.
Proof.
  split; [intros vs; unfold cum_min; rewrite map_length, scan_length, map_length; reflexivity|]. intros vs x rest. unfold min_upto, cum_min.
  rewrite nth_map_of_num, scan_at. destruct (number_of x) as [z|] eqn:E; [|reflexivity]. destruct (has_number vs x z E) as (z0 & l & ->).
  unfold after_op. cbn [fold_left]. fold (after_op Z.min (Some z0) l). destruct (after_min z0 l) as (w & -> & Hw). exists w. auto.
Qed.
Lemma cum_max_prefix : prefix_function cum_max max_upto.
Proof.
  split; [intros vs; unfold cum_max; rewrite map_length, scan_length, map_length; reflexivity|]. intros vs x rest. unfold max_upto, cum_max.
  rewrite nth_map_of_num, scan_at. destruct (number_of x) as [z|] eqn:E; [|reflexivity]. destruct (has_number vs x z E) as (z0 & l & ->).
  unfold after_op. cbn [fold_left]. fold (after_op Z.max (Some z0) l). destruct (after_max z0 l) as (w & -> & Hw). exists w. auto.
Qed.
Lemma cum_count_prefix : prefix_function cum_count count_upto.
Proof.
  split; [intros vs; unfold cum_count; rewrite map_length, seq_length; reflexivity|]. intros vs x rest. unfold count_upto, cum_count.
  rewrite nth_indep with (d' := VNum (Z.of_nat 0)); [|rewrite map_length, seq_length, app_length; cbn [List.length]; lia].
  rewrite (map_nth (fun n => VNum (Z.of_nat n))). rewrite seq_nth; [|rewrite app_length; cbn [List.length]; lia]. f_equal. lia.
Qed.
Lemma diff_from_length p l : List.length (diff_from p l) = List.length l.
Proof. revert p. induction l as [|x l IH]; intros p; cbn [diff_from List.length]; [reflexivity | f_equal; apply IH]. Qed.
Lemma diff_prefix : prefix_function diff diff_upto.
Proof.
  split; [intros vs; unfold diff; rewrite map_length, diff_from_length, map_length; reflexivity|]. intros vs x rest. unfold diff_upto, diff.
  rewrite nth_map_of_num.
  assert (forall vs p, nth (List.length vs) (diff_from p (map as_num (vs ++ x :: rest))) None =
     match number_of x with
     | Some z => match (match vs with [] => p | _ => number_of (last vs VNull) end) with Some y => Some (z - y) | None => None end
     | None => None end) as H.
  { clear vs. induction vs as [|v vs IH]; intros p; cbn [app map List.length diff_from nth].
    - rewrite as_num_number. destruct p, (number_of x); reflexivity.
    - rewrite IH. cbn [last]. rewrite as_num_number. destruct vs; reflexivity. }
  rewrite H. destruct (number_of x) as [z|]; [|reflexivity]. destruct vs as [|v vs]; [reflexivity|]. destruct (number_of (last (v :: vs) VNull)); reflexivity.
Qed.

(** CumMean: missing values count in the denominator *)
Theorem C51_cum_mean vs x rest :
  nth (List.length vs) (cum_mean (vs ++ x :: rest)) None =
  match number_of x with
  | Some _ => Some (Q2Qc (total (numbers (vs ++ [x])) # Pos.of_succ_nat (List.length vs)))
  | None => None
  end.
Proof.
  unfold cum_mean. set (h := fun xn : option Z * nat => _). change (@None Qc) with (h (None, O)) at 1. rewrite map_nth.
  assert (forall k (a : list (option Z)) b, List.length a = List.length b -> nth k (combine a b) (None, O) = (nth k a None, nth k b O)) as Hc.
  { intros k a b Hl. rewrite combine_nth by exact Hl. reflexivity. }
  rewrite Hc by (rewrite scan_length, map_length, seq_length; reflexivity). unfold h. cbn [fst snd].
  rewrite scan_at. rewrite seq_nth by (rewrite app_length; cbn [List.length]; lia).
  destruct (number_of x) as [z|] eqn:E; [|reflexivity]. destruct (has_number vs x z E) as (z0 & l & ->).
  unfold after_op. cbn [fold_left]. fold (after_op Z.add (Some z0) l). rewrite after_sum. cbn [total]. rewrite Pos.of_nat_succ. reflexivity.
Qed.

(** ** features *)
Section Features.
  Variables (es : entityset) (idvars : string -> list string) (ord : list string -> list string) (T : Z) (tw : option window) (incl : bool)
    (fs : list feat) (eid : string) (ids : list val) (m : matrix).
  Hypothesis Hv : valid_request es idvars ord tw fs eid.
  Hypothesis Hd : forall f, In f fs -> some_value es T tw incl eid ids f.
  Hypothesis Hrun : run es idvars ord fs no_appr no_pre T tw incl ids = Ok m.

  (** the value of (the first output of) feature [f] in row [r] *)
  Definition at_cutoff (f : feat) (r : row) : val := hd VNull (sem es T tw incl f r).
  (** the rows of [rs] in the same group as [r] *)
  Definition same_group (g : feat) (r : row) (rs : list row) : list row :=
    filter (fun c => val_eqb (at_cutoff g c) (at_cutoff g r)) rs.

  Lemma nodup_rows : NoDup (map (cell (index_of es eid)) (rows_at es T tw incl eid)).
  Proof. apply R_NoDup; [apply (vr_es _ _ _ _ _ _ Hv) | apply (vr_index _ _ _ _ _ _ Hv) | apply (vr_window _ _ _ _ _ _ Hv)]. Qed.

  (** a grouped cumulative feature: the rows of the row's group up to the row *)
  Lemma grouped cls nam f P b g nm n before r after v : prefix_function f P -> In (FGroup (full_transform cls nam f) [b] g nm) fs ->
    fnames (es_rels es) (FGroup (full_transform cls nam f) [b] g nm) = [n] ->
    rows_at es T tw incl eid = before ++ r :: after -> entry m (cell (index_of es eid) r) n v ->
    (at_cutoff g r = VNull /\ v = VNull) \/
    (at_cutoff g r <> VNull /\ P (map (at_cutoff b) (same_group g r before)) (at_cutoff b r) v).
  Proof.
    intros [Hlen HP] Hf Hn Hrows He. set (F := FGroup (full_transform cls nam f) [b] g nm) in *.
    assert (nth_error (fnames (es_rels es) F) 0 = Some n) as H0 by (rewrite Hn; reflexivity).
    pose proof (C06_entries_partial _ _ _ _ _ _ _ _ _ _ Hv Hd Hrun F 0%nat n _ v Hf H0 He) as H. unfold value_of in H.
    assert (fentity F = eid) as Ef by (apply (vr_features _ _ _ _ _ _ Hv F Hf)). rewrite Ef in H.
    assert (In r (rows_at es T tw incl eid)) as Hr by (rewrite Hrows; apply in_or_app; right; left; reflexivity).
    pose proof nodup_rows as Hnd. rewrite (row_with_unique (index_of es eid)) in H; [|exact Hnd | exact Hr].
    assert (sem es T tw incl F r =
       (if is_null (at_cutoff g r) then [VNull] else
         [or_default VNull (at_row (index_of es eid) (same_group g r (rows_at es T tw incl eid)) (cell (index_of es eid) r)
            (f (map (at_cutoff b) (same_group g r (rows_at es T tw incl eid)))))])) as Es.
    { unfold F. cbn [sem p_default p_nout p_trans full_transform repeat map hd]. fold F. rewrite Ef. reflexivity. }
    rewrite Es in H. destruct (at_cutoff g r) as [|z|z|z] eqn:Eg; cbn [is_null] in H;
      [left; injection H as <-; auto | right .. ]; (split; [discriminate|]).
    all: assert (same_group g r (rows_at es T tw incl eid) = same_group g r before ++ r :: same_group g r after) as Esg
      by (rewrite Hrows; unfold same_group; rewrite filter_app; cbn [filter]; destruct (val_eqb_spec (at_cutoff g r) (at_cutoff g r)) as [_|C]; [reflexivity | destruct (C eq_refl)]).
    all: rewrite Esg in H; injection H as <-.
    all: rewrite (at_row_nth _ _ _ (List.length (same_group g r before)) r);
      [| rewrite <- Esg; apply NoDup_map_filter; exact Hnd | rewrite Hlen, map_length; reflexivity | rewrite nth_error_app2 by lia; rewrite Nat.sub_diag; reflexivity].
    all: rewrite map_app; cbn [map]; specialize (HP (map (at_cutoff b) (same_group g r before)) (at_cutoff b r) (map (at_cutoff b) (same_group g r after)));
      rewrite map_length in HP; unfold or_default; destruct (is_null _) eqn:En in |- *; [|exact HP].
    all: destruct (nth _ _ VNull) in HP, En; [exact HP | discriminate ..].
  Qed.

  (** an ungrouped cumulative feature: the rows of the entity up to the row *)
  Lemma ungrouped cls nam f P b nm n before r after v : prefix_function f P -> In (FTrans (full_transform cls nam f) [b] nm) fs ->
    fnames (es_rels es) (FTrans (full_transform cls nam f) [b] nm) = [n] ->
    rows_at es T tw incl eid = before ++ r :: after -> entry m (cell (index_of es eid) r) n v ->
    P (map (at_cutoff b) before) (at_cutoff b r) v.
  Proof.
    intros [Hlen HP] Hf Hn Hrows He. set (F := FTrans (full_transform cls nam f) [b] nm) in *.
    assert (nth_error (fnames (es_rels es) F) 0 = Some n) as H0 by (rewrite Hn; reflexivity).
    pose proof (C06_entries_partial _ _ _ _ _ _ _ _ _ _ Hv Hd Hrun F 0%nat n _ v Hf H0 He) as H. unfold value_of in H.
    assert (fentity F = eid) as Ef by (apply (vr_features _ _ _ _ _ _ Hv F Hf)). rewrite Ef in H.
    assert (In r (rows_at es T tw incl eid)) as Hr by (rewrite Hrows; apply in_or_app; right; left; reflexivity).
    pose proof nodup_rows as Hnd. rewrite (row_with_unique (index_of es eid)) in H; [|exact Hnd | exact Hr].
    assert (sem es T tw incl F r =
         [at_row (index_of es eid) (rows_at es T tw incl eid) (cell (index_of es eid) r) (f (map (at_cutoff b) (rows_at es T tw incl eid)))]) as Es.
    { unfold F. cbn [sem p_default p_nout p_trans full_transform repeat map hd]. fold F. rewrite Ef. reflexivity. }
    rewrite Es in H. injection H as <-.
    rewrite (at_row_nth _ _ _ (List.length before) r); [| exact Hnd | rewrite Hlen, map_length; reflexivity | rewrite Hrows, nth_error_app2 by lia; rewrite Nat.sub_diag; reflexivity].
    rewrite Hrows, map_app. cbn [map]. specialize (HP (map (at_cutoff b) before) (at_cutoff b r) (map (at_cutoff b) after)). rewrite map_length in HP. exact HP.
  Qed.
End Features.

(** ** the calculation of a group of columns, for every frame *)
Lemma upd_nth gb key n vs : forall rs k,
  nth_error (update_group gb key n vs rs) k =
  option_map (fun r : row => if val_eqb (cell gb r) key then
      match nth_error vs (List.length (filter (fun x => val_eqb (cell gb x) key) (firstn k rs))) with
      | Some v => if is_null v then r else dset String.eqb n v r
      | None => r end else r) (nth_error rs k).
Proof.
  intros rs. revert vs. induction rs as [|r rs IH]; intros vs k; [destruct k; reflexivity|]. cbn [update_group].
  destruct (val_eqb (cell gb r) key) eqn:E.
  - destruct vs as [|v vs]; (destruct k as [|k]; cbn [nth_error option_map firstn filter List.length]; rewrite ?E; [reflexivity|]); cbn [List.length nth_error]; rewrite IH.
    + destruct (nth_error rs k) as [x|]; [|reflexivity]. cbn [option_map]. destruct (val_eqb (cell gb x) key); [|reflexivity]. destruct (List.length _); reflexivity.
    + reflexivity.
  - destruct k as [|k]; cbn [nth_error option_map firstn filter List.length]; rewrite ?E; [reflexivity | apply IH].
Qed.
Lemma upd_keys gb key n vs : gb <> n -> forall rs, map (cell gb) (update_group gb key n vs rs) = map (cell gb) rs.
Proof.
  intros Hn rs. revert vs. induction rs as [|r rs IH]; intros vs; [reflexivity|]. cbn [update_group].
  destruct (val_eqb (cell gb r) key); [destruct vs as [|v vs]|]; cbn [map]; rewrite IH; try reflexivity. destruct (is_null v); [reflexivity|]. rewrite cell_dset_other by exact Hn. reflexivity.
Qed.
Lemma filter_keys_length gb key : forall (rs rs' : list row) k, map (cell gb) rs = map (cell gb) rs' ->
  List.length (filter (fun x => val_eqb (cell gb x) key) (firstn k rs)) = List.length (filter (fun x => val_eqb (cell gb x) key) (firstn k rs')).
Proof.
  induction rs as [|r rs IH]; intros [|r' rs'] k E; try discriminate; [reflexivity|]. cbn [map] in E. injection E as E1 E2.
  destruct k as [|k]; [reflexivity|]. cbn [firstn filter]. rewrite E1. destruct (val_eqb (cell gb r') key); cbn [List.length]; rewrite (IH rs' k E2); reflexivity.
Qed.

Section Frames.
  Variables (es : entityset) (T : Z) (cls nam : string) (f : list val -> list val) (P : list val -> val -> val -> Prop).
  Hypothesis Hf : prefix_function f P.
  Let p := full_transform cls nam f.

  Lemma group_loop gb bn n d0 : In bn (cols d0) -> gb <> n ->
    forall ks d, NoDup ks -> map (cell gb) (rows d) = map (cell gb) (rows d0) ->
    exists d', foldM (fun d key =>
        let grp := filter_df (fun r => val_eqb (cell gb r) key) d0 in
        do args <- mapM (column grp) [bn];
        let outs := p_trans p (calc_time T p) args in
        if Nat.eqb (List.length outs) (List.length [n]) &&
           forallb (fun c => Nat.eqb (List.length c) (List.length (rows grp))) outs then
          Ok (mkDf (cols d) (fold_left (fun rs nv => update_group gb key (fst nv) (snd nv) rs) (combine [n] outs) (rows d)))
        else Err ValueError) ks d = Ok d' /\ cols d' = cols d /\ List.length (rows d') = List.length (rows d) /\
      forall k r0 r, nth_error (rows d0) k = Some r0 -> nth_error (rows d) k = Some r ->
        let v := nth (List.length (filter (fun x => val_eqb (cell gb x) (cell gb r0)) (firstn k (rows d0))))
                     (f (map (cell bn) (filter (fun x => val_eqb (cell gb x) (cell gb r0)) (rows d0)))) VNull in
        nth_error (rows d') k = Some (if mem_val (cell gb r0) ks then if is_null v then r else dset String.eqb n v r else r).
  Proof.
    intros Hbn Hgn. destruct Hf as [Hlen _]. induction ks as [|key ks IH]; intros d Hnd Hk.
    - exists d. cbn [foldM]. split; [reflexivity|]. split; [reflexivity|]. split; [reflexivity|]. intros k r0 r _ H. exact H.
    - inversion Hnd as [|x l Hx Hl]; subst. cbn [foldM].
      assert (column (filter_df (fun r => val_eqb (cell gb r) key) d0) bn = Ok (map (cell bn) (filter (fun r => val_eqb (cell gb r) key) (rows d0)))) as Ec.
      { unfold column, check_col, filter_df. cbn [cols rows]. rewrite (proj2 (mem_str_In bn (cols d0)) Hbn). reflexivity. }
      cbv zeta. cbn [mapM]. rewrite Ec. cbn [bind p_trans p full_transform hd List.length Nat.eqb forallb filter_df rows cols combine fold_left fst snd].
      rewrite Hlen, map_length, Nat.eqb_refl. cbn [andb bind].
      set (vs := f (map (cell bn) (filter (fun r => val_eqb (cell gb r) key) (rows d0)))).
      destruct (IH (mkDf (cols d) (update_group gb key n vs (rows d))) Hl) as (d' & E & C & L & N).
      { cbn [rows]. rewrite upd_keys by exact Hgn. exact Hk. }
      exists d'. split; [exact E|]. split; [exact C|]. split.
      + rewrite L. cbn [rows]. rewrite <- (map_length (cell gb)), upd_keys by exact Hgn. apply map_length.
      + intros k r0 r H0 Hr. cbv zeta. cbn [rows] in N.
        assert (cell gb r = cell gb r0) as Egb.
        { assert (nth_error (map (cell gb) (rows d)) k = nth_error (map (cell gb) (rows d0)) k) as E' by (rewrite Hk; reflexivity).
          rewrite !nth_error_map, H0, Hr in E'. cbn [option_map] in E'. congruence. }
        pose proof (upd_nth gb key n vs (rows d) k) as U. rewrite Hr in U. cbn [option_map] in U.
        rewrite (N k r0 _ H0 U). cbn [mem_val existsb]. change (existsb (val_eqb (cell gb r0)) ks) with (mem_val (cell gb r0) ks). rewrite Egb.
        destruct (val_eqb_spec (cell gb r0) key) as [Ek|Ek]; cbn [orb]; [|reflexivity].
        assert (mem_val (cell gb r0) ks = false) as ->. { apply not_true_iff_false. intros Hm. apply mem_val_In in Hm. rewrite Ek in Hm. contradiction. }
        rewrite (filter_keys_length gb key (rows d) (rows d0) k Hk). subst key. fold vs.
        assert (List.length (filter (fun x => val_eqb (cell gb x) (cell gb r0)) (firstn k (rows d0))) < List.length vs)%nat as Hlt.
        { unfold vs. rewrite Hlen, map_length. apply nth_error_split in H0 as (l1 & l2 & Hsp & Hl1). rewrite Hsp, <- Hl1.
          rewrite firstn_app, Nat.sub_diag, firstn_all. cbn [firstn]. rewrite app_nil_r, filter_app, app_length. cbn [filter].
          destruct (val_eqb_spec (cell gb r0) (cell gb r0)) as [_|Cc]; [cbn [List.length]; lia | destruct (Cc eq_refl)]. }
        rewrite (List.nth_error_nth' vs VNull Hlt). reflexivity.
  Qed.

  Lemma grouped_frame d b g nm n : fnames (es_rels es) (FGroup p [b] g nm) = [n] ->
    In (fname (es_rels es) b) (cols d) -> In (fname (es_rels es) g) (cols d) -> n <> fname (es_rels es) b -> n <> fname (es_rels es) g ->
    exists d', calc_groupby es T [FGroup p [b] g nm] d = Ok d' /\ List.length (rows d') = List.length (rows d) /\
    forall before r after, rows d = before ++ r :: after ->
      exists r', nth_error (rows d') (List.length before) = Some r' /\ (forall c, c <> n -> cell c r' = cell c r) /\
        (let gb := fname (es_rels es) g in let bn := fname (es_rels es) b in
         (cell gb r = VNull /\ cell n r' = VNull) \/
         (cell gb r <> VNull /\ P (map (cell bn) (filter (fun x => val_eqb (cell gb x) (cell gb r)) before)) (cell bn r) (cell n r'))).
  Proof.
    intros Hn Hb Hg Hnb Hng. set (gb := fname (es_rels es) g) in *. set (bn := fname (es_rels es) b) in *.
    unfold calc_groupby. cbn [foldM bind]. rewrite Hn. cbn [fold_left p_default p full_transform bind].
    set (d1 := assign_scalar d n VNull).
    assert (forall c, In c (cols d) -> In c (cols d1)) as Hc1.
    { intros c Hc. unfold d1, assign_scalar, add_col. cbn [cols]. destruct (mem_str n (cols d)); [exact Hc | apply in_or_app; left; exact Hc]. }
    assert (rows d1 = map (dset String.eqb n VNull) (rows d)) as Hr1 by reflexivity.
    destruct (rows d1) as [|x xs] eqn:Erows.
    - exists d1. split; [reflexivity|]. destruct (rows d) as [|y ys] eqn:Ed; [|discriminate]. split; [rewrite Erows; reflexivity|]. intros before r after E; destruct before; discriminate.
    - rewrite <- Erows in *. clear Erows x xs. unfold check_col. fold gb. rewrite (proj2 (mem_str_In gb (cols d1)) (Hc1 gb Hg)). cbn [bind map]. fold bn.
      destruct (group_loop gb bn n d1 (Hc1 bn Hb) (fun e => Hng (eq_sym e)) (group_keys (cell gb) (rows d1)) d1 (group_keys_NoDup _ _) eq_refl) as (d' & E & C & L & N).
      assert (groupby_feature T gb p [n] [bn] d1 d1 = Ok d') as E' by exact E. exists d'. rewrite E'. cbn [bind]. split; [reflexivity|]. split; [rewrite L, Hr1; apply map_length|].
      intros before r after Hsplit. set (r1 := dset String.eqb n VNull r).
      assert (nth_error (rows d1) (List.length before) = Some r1) as H1.
      { rewrite Hr1, Hsplit, map_app. cbn [map]. rewrite nth_error_app2 by (rewrite map_length; lia). rewrite map_length, Nat.sub_diag. reflexivity. }
      pose proof (N _ r1 r1 H1 H1) as N1. cbv zeta in N1. clear N.
      assert (forall c, c <> n -> forall x, cell c (dset String.eqb n VNull x) = cell c x) as Hce by (intros c Hc x; apply cell_dset_other; exact Hc).
      assert (cell gb r1 = cell gb r) as Egb by (apply Hce; congruence). rewrite Egb in N1.
      assert (firstn (List.length before) (rows d1) = map (dset String.eqb n VNull) before) as Efn.
      { rewrite Hr1, Hsplit, firstn_map, firstn_app, Nat.sub_diag, firstn_all. cbn [firstn]. rewrite app_nil_r. reflexivity. }
      assert (forall l : list row, map (cell bn) (filter (fun x => val_eqb (cell gb x) (cell gb r)) (map (dset String.eqb n VNull) l)) =
              map (cell bn) (filter (fun x => val_eqb (cell gb x) (cell gb r)) l)) as Efm.
      { induction l as [|y l IHl]; [reflexivity|]. cbn [map filter]. rewrite (Hce gb) by congruence. destruct (val_eqb (cell gb y) (cell gb r)); cbn [map]; rewrite IHl; [|reflexivity].
        rewrite (Hce bn) by congruence. reflexivity. }
      rewrite Hr1, Efm in N1. rewrite <- Hr1 in N1. rewrite Efn in N1.
      assert (List.length (filter (fun x => val_eqb (cell gb x) (cell gb r)) (map (dset String.eqb n VNull) before)) =
              List.length (map (cell bn) (filter (fun x => val_eqb (cell gb x) (cell gb r)) before))) as Elf by (rewrite <- Efm, map_length; reflexivity).
      rewrite Elf in N1.
      match type of N1 with context [nth ?a ?b VNull] => set (v := nth a b VNull) in * end.
      eexists. split; [exact N1|].
      destruct (val_eqb_spec (cell gb r) VNull) as [E0|E0].
      + assert (mem_val (cell gb r) (group_keys (cell gb) (rows d1)) = false) as ->.
        { apply not_true_iff_false. intros Hm. apply mem_val_In in Hm. apply group_keys_In in Hm as [Hm _]. contradiction. }
        split; [intros c Hc; apply Hce; exact Hc|]. left. split; [exact E0 | apply cell_dset_same].
      + assert (mem_val (cell gb r) (group_keys (cell gb) (rows d1)) = true) as ->.
        { apply mem_val_In. apply group_keys_In. split; [exact E0|]. exists r1. split; [eapply nth_error_In; exact H1 | exact Egb]. }
        assert (P (map (cell bn) (filter (fun x => val_eqb (cell gb x) (cell gb r)) before)) (cell bn r) v) as HP.
        { unfold v. rewrite Hsplit, filter_app, map_app. cbn [filter]. destruct (val_eqb_spec (cell gb r) (cell gb r)) as [_|Cc]; [|destruct (Cc eq_refl)]. cbn [map]. apply (proj2 Hf). }
        split.
        * intros c Hc. destruct (is_null v); [|rewrite cell_dset_other by exact Hc]; apply Hce; exact Hc.
        * right. split; [exact E0|]. destruct (is_null v) eqn:Ev; [|rewrite cell_dset_same; exact HP]. unfold r1. rewrite cell_dset_same. destruct v; try discriminate. exact HP.
  Qed.

  Lemma ungrouped_frame d b nm n : fnames (es_rels es) (FTrans p [b] nm) = [n] -> In (fname (es_rels es) b) (cols d) ->
    exists d', calc_transform es T [FTrans p [b] nm] d = Ok d' /\ List.length (rows d') = List.length (rows d) /\
    forall before r after, rows d = before ++ r :: after ->
      exists r', nth_error (rows d') (List.length before) = Some r' /\ (forall c, c <> n -> cell c r' = cell c r) /\
        P (map (cell (fname (es_rels es) b)) before) (cell (fname (es_rels es) b) r) (cell n r').
  Proof.
    intros Hn Hb. set (bn := fname (es_rels es) b) in *. unfold calc_transform. cbn [foldM mapM bind map]. rewrite Hn. fold bn. cbn [fold_left p_default p full_transform bind].
    destruct (rows d) as [|x xs] eqn:Ed.
    - eexists. split; [reflexivity|]. split; [unfold assign_scalar; cbn [rows]; rewrite Ed; reflexivity|]. intros before r after E; destruct before; discriminate.
    - rewrite <- Ed in *. clear Ed x xs. unfold trans_values, column, check_col. cbn [mapM]. rewrite (proj2 (mem_str_In bn (cols d)) Hb).
      cbv zeta. cbn [bind p_trans p full_transform hd List.length Nat.eqb combine List.concat app foldM fst snd map]. unfold assign_col. rewrite (proj1 Hf), map_length, Nat.eqb_refl. cbn [bind].
      eexists. split; [reflexivity|]. cbn [rows]. split; [rewrite map_length, combine_length; rewrite (proj1 Hf), map_length; lia|].
      intros before r after E. rewrite nth_error_map.
      assert (nth_error (combine (rows d) (f (map (cell bn) (rows d)))) (List.length before) =
              Some (r, nth (List.length before) (f (map (cell bn) (rows d))) VNull)) as Ec.
      { assert (forall (l1 : list row) (l2 : list val) k, (k < List.length l1)%nat -> List.length l2 = List.length l1 -> nth_error (combine l1 l2) k = Some (nth k l1 r, nth k l2 VNull)) as Hcn.
        { induction l1 as [|a l1 IH]; intros [|c l2] [|k] Hk El; cbn in *; try lia; [reflexivity|]. apply IH; lia. }
        rewrite Hcn; [|rewrite E, app_length; cbn [List.length]; lia | rewrite (proj1 Hf), map_length; reflexivity].
        rewrite E at 1. rewrite app_nth2 by lia. rewrite Nat.sub_diag. reflexivity. }
      eexists. split; [exact (f_equal (option_map (fun rv : row * val => dset String.eqb n (snd rv) (fst rv))) Ec)|]. cbn [fst snd]. split; [intros c Hc; apply cell_dset_other; exact Hc|].
      rewrite cell_dset_same, E, map_app. cbn [map]. rewrite <- (map_length (cell bn) before). apply (proj2 Hf).
  Qed.
End Frames.

(** ** C51 *)
(** The calculation of a grouped feature adds one column [n] to the frame: in the row [r] that follows the rows
    [before], it holds the running value over the rows of [before] in the group of [r], and [r] itself; a row without a group gets the
    default, NaN.  Other groups do not occur in the statement. *)
Definition grouped_column (es : entityset) (T : Z) (p : prim) (upto : list val -> val -> val -> Prop) : Prop :=
  forall d b g nm n, fnames (es_rels es) (FGroup p [b] g nm) = [n] ->
    let gb := fname (es_rels es) g in let bn := fname (es_rels es) b in
    In bn (cols d) -> In gb (cols d) -> n <> bn -> n <> gb ->
    exists d', calc_groupby es T [FGroup p [b] g nm] d = Ok d' /\ List.length (rows d') = List.length (rows d) /\
    forall before r after, rows d = before ++ r :: after ->
      exists r', nth_error (rows d') (List.length before) = Some r' /\ (forall c, c <> n -> cell c r' = cell c r) /\
        ((cell gb r = VNull /\ cell n r' = VNull) \/
         (cell gb r <> VNull /\ upto (map (cell bn) (filter (fun x => val_eqb (cell gb x) (cell gb r)) before)) (cell bn r) (cell n r'))).
Definition plain_column (es : entityset) (T : Z) (p : prim) (upto : list val -> val -> val -> Prop) : Prop :=
  forall d b nm n, fnames (es_rels es) (FTrans p [b] nm) = [n] ->
    let bn := fname (es_rels es) b in
    In bn (cols d) ->
    exists d', calc_transform es T [FTrans p [b] nm] d = Ok d' /\ List.length (rows d') = List.length (rows d) /\
    forall before r after, rows d = before ++ r :: after ->
      exists r', nth_error (rows d') (List.length before) = Some r' /\ (forall c, c <> n -> cell c r' = cell c r) /\
        upto (map (cell bn) before) (cell bn r) (cell n r').

Theorem C51_cum_sum es T : grouped_column es T CumSum sum_upto /\ plain_column es T CumSum sum_upto.
Proof. split; [intros d b g nm n; apply (grouped_frame es T _ _ _ _ cum_sum_prefix) | intros d b nm n; apply (ungrouped_frame es T _ _ _ _ cum_sum_prefix)]. Qed.
Theorem C51_cum_count es T : grouped_column es T CumCount count_upto /\ plain_column es T CumCount count_upto.
Proof. split; [intros d b g nm n; apply (grouped_frame es T _ _ _ _ cum_count_prefix) | intros d b nm n; apply (ungrouped_frame es T _ _ _ _ cum_count_prefix)]. Qed.
Theorem C51_cum_min es T : grouped_column es T CumMin min_upto /\ plain_column es T CumMin min_upto.
Proof. split; [intros d b g nm n; apply (grouped_frame es T _ _ _ _ cum_min_prefix) | intros d b nm n; apply (ungrouped_frame es T _ _ _ _ cum_min_prefix)]. Qed.
Theorem C51_cum_max es T : grouped_column es T CumMax max_upto /\ plain_column es T CumMax max_upto.
Proof. split; [intros d b g nm n; apply (grouped_frame es T _ _ _ _ cum_max_prefix) | intros d b nm n; apply (ungrouped_frame es T _ _ _ _ cum_max_prefix)]. Qed.
Theorem C51_diff es T : grouped_column es T Diff diff_upto /\ plain_column es T Diff diff_upto.
Proof. split; [intros d b g nm n; apply (grouped_frame es T _ _ _ _ diff_prefix) | intros d b nm n; apply (ungrouped_frame es T _ _ _ _ diff_prefix)]. Qed.

(** in a feature matrix: the running value over the rows of the entity visible at the cutoff, also those of
    instances that were not requested *)
Section Matrix.
  Variables (es : entityset) (idvars : string -> list string) (ord : list string -> list string) (T : Z) (tw : option window) (incl : bool)
    (fs : list feat) (eid : string) (ids : list val) (m : matrix).
  Hypothesis Hv : valid_request es idvars ord tw fs eid.
  Hypothesis Hd : forall f, In f fs -> some_value es T tw incl eid ids f.
  Hypothesis Hrun : run es idvars ord fs no_appr no_pre T tw incl ids = Ok m.

  Theorem C51_matrix_grouped_partial p upto : In (p, upto) [(CumSum, sum_upto); (CumCount, count_upto); (CumMin, min_upto); (CumMax, max_upto); (Diff, diff_upto)] ->
    forall b g nm n before r after v, In (FGroup p [b] g nm) fs -> fnames (es_rels es) (FGroup p [b] g nm) = [n] ->
    rows_at es T tw incl eid = before ++ r :: after -> entry m (cell (index_of es eid) r) n v ->
    let value f r := at_cutoff es T tw incl f r in
    (value g r = VNull /\ v = VNull) \/
    (value g r <> VNull /\ upto (map (value b) (filter (fun c => val_eqb (value g c) (value g r)) before)) (value b r) v).
  Proof.
    cbn [In]. intros [E|[E|[E|[E|[E|[]]]]]]; injection E as <- <-; intros b g nm n before r after v; cbv zeta;
      [apply (grouped es idvars ord T tw incl fs eid ids m Hv Hd Hrun _ _ _ _ b g nm n before r after v cum_sum_prefix)
      |apply (grouped es idvars ord T tw incl fs eid ids m Hv Hd Hrun _ _ _ _ b g nm n before r after v cum_count_prefix)
      |apply (grouped es idvars ord T tw incl fs eid ids m Hv Hd Hrun _ _ _ _ b g nm n before r after v cum_min_prefix)
      |apply (grouped es idvars ord T tw incl fs eid ids m Hv Hd Hrun _ _ _ _ b g nm n before r after v cum_max_prefix)
      |apply (grouped es idvars ord T tw incl fs eid ids m Hv Hd Hrun _ _ _ _ b g nm n before r after v diff_prefix)].
  Qed.
  Theorem C51_matrix_plain_partial p upto : In (p, upto) [(CumSum, sum_upto); (CumCount, count_upto); (CumMin, min_upto); (CumMax, max_upto); (Diff, diff_upto)] ->
    forall b nm n before r after v, In (FTrans p [b] nm) fs -> fnames (es_rels es) (FTrans p [b] nm) = [n] ->
    rows_at es T tw incl eid = before ++ r :: after -> entry m (cell (index_of es eid) r) n v ->
    upto (map (at_cutoff es T tw incl b) before) (at_cutoff es T tw incl b r) v.
  Proof.
    cbn [In]. intros [E|[E|[E|[E|[E|[]]]]]]; injection E as <- <-; intros b nm n before r after v;
      [apply (ungrouped es idvars ord T tw incl fs eid ids m Hv Hd Hrun _ _ _ _ b nm n before r after v cum_sum_prefix)
      |apply (ungrouped es idvars ord T tw incl fs eid ids m Hv Hd Hrun _ _ _ _ b nm n before r after v cum_count_prefix)
      |apply (ungrouped es idvars ord T tw incl fs eid ids m Hv Hd Hrun _ _ _ _ b nm n before r after v cum_min_prefix)
      |apply (ungrouped es idvars ord T tw incl fs eid ids m Hv Hd Hrun _ _ _ _ b nm n before r after v cum_max_prefix)
      |apply (ungrouped es idvars ord T tw incl fs eid ids m Hv Hd Hrun _ _ _ _ b nm n before r after v diff_prefix)].
  Qed.
End Matrix.

(** a frame with two groups, a missing value and a row without group *)
Definition cum_demo : df := mkDf ["id"; "x"; "k"]%string
  [[("id", VNum 1); ("x", VNum 4); ("k", VStr "a")]; [("id", VNum 2); ("x", VNum 7); ("k", VStr "b")]; [("id", VNum 3); ("x", VNull); ("k", VStr "a")];
   [("id", VNum 4); ("x", VNum 9); ("k", VNull)]; [("id", VNum 5); ("x", VNum 2); ("k", VStr "a")]]%string.
Definition cum_b : feat := FIdent "e" "x" None.
Definition cum_g : feat := FIdent "e" "k" None.
Example C51_nonvacuous : exists n,
  fnames (es_rels (demo_es [])) (FGroup CumSum [cum_b] cum_g None) = [n] /\ In "x"%string (cols cum_demo) /\ In "k"%string (cols cum_demo) /\
  n <> "x"%string /\ n <> "k"%string /\
  (exists d', calc_groupby (demo_es []) 0 [FGroup CumSum [cum_b] cum_g None] cum_demo = Ok d' /\ map (cell n) (rows d') = [VNum 4; VNum 7; VNull; VNull; VNum 6]) /\
  (exists d', calc_groupby (demo_es []) 0 [FGroup CumMin [cum_b] cum_g (Some n)] cum_demo = Ok d' /\ map (cell n) (rows d') = [VNum 4; VNum 7; VNull; VNull; VNum 2]) /\
  (exists d', calc_groupby (demo_es []) 0 [FGroup CumCount [cum_b] cum_g (Some n)] cum_demo = Ok d' /\ map (cell n) (rows d') = [VNum 1; VNum 1; VNum 2; VNull; VNum 3]).
Proof.
  exists "CUM_SUM(x) by k"%string. split; [vm_compute; reflexivity|]. split; [right; left; reflexivity|]. split; [right; right; left; reflexivity|].
  split; [discriminate|]. split; [discriminate|].
  split; [|split]; (eexists; split; [vm_compute; reflexivity | vm_compute; reflexivity]).
Qed.

(** every cumulative feature of the events, grouped by session and not, is a valid request; asking for one event
    gives the running values over all visible events *)
Definition cum_fs : list feat := flat_map (fun p => [FGroup p [f_amt] f_esid None; FTrans p [f_amt] None]) [CumSum; CumCount; CumMin; CumMax; Diff].
Lemma cum_needed f : needed cum_fs f -> In f (f_amt :: f_esid :: cum_fs).
Proof.
  intros (f0 & Hf0 & Hr). assert (In f0 (f_amt :: f_esid :: cum_fs)) as H0 by (right; right; exact Hf0). clear Hf0.
  induction Hr as [f|f d g Hd Hr IH]; [exact H0|]. apply IH. unfold cum_fs in *. cbn [flat_map app] in *. in_cases H0; cbn in Hd; in_cases Hd; try (left; reflexivity); right; left; reflexivity.
Qed.
Lemma cum_request : valid_request (demo_es []) demo_idvars (fun l => l) None cum_fs "event"%string.
Proof.
  pose proof (demo_request (fun l => l) (fun l => Permutation_refl l)) as HD. constructor; [exact (vr_es _ _ _ _ _ _ HD) | exact (vr_index _ _ _ _ _ _ HD) | exact (vr_idvars _ _ _ _ _ _ HD) | exact (vr_window _ _ _ _ _ _ HD) | exact (vr_order _ _ _ _ _ _ HD) | | |].
  - intros f Hf. unfold cum_fs in Hf. cbn [flat_map app] in Hf. in_cases Hf; (split; [|split; [intros [] | reflexivity]]);
      first [apply wt_group; [discriminate | constructor | reflexivity | intros b [<-|[]]; constructor | intros b [<-|[]]; split; reflexivity]
            |apply wt_trans with "event"%string; [discriminate | intros b [<-|[]]; constructor | intros b [<-|[]]; split; reflexivity]].
  - constructor.
    + intros f g Hf Hg. apply cum_needed in Hf, Hg. unfold cum_fs in Hf, Hg. cbn [flat_map app] in Hf, Hg.
      in_cases Hf; in_cases Hg; vm_compute; intros E; try reflexivity; discriminate E.
    + intros f g i j n [Hf _] [Hg _] E Hi Hj. apply cum_needed in Hf, Hg. unfold cum_fs in Hf, Hg. cbn [flat_map app] in Hf, Hg.
      in_cases Hf; in_cases Hg; vm_compute in Hi, Hj; destruct i as [|[|i]]; try discriminate Hi; destruct j as [|[|j]]; try discriminate Hj; injection Hi as <-; try discriminate Hj; split; reflexivity.
    + intros f e n [Hf _] He Hn Hc. apply cum_needed in Hf. unfold cum_fs in Hf. cbn [flat_map app] in Hf. in_cases Hf; try exact I; vm_compute in He; injection He as <-; vm_compute in Hn, Hc; in_cases Hn; exfalso; repeat (destruct Hc as [Hc|Hc]; [discriminate Hc|]); destruct Hc.
    + intros e v nm Hf. apply cum_needed in Hf. cbn in Hf. repeat (destruct Hf as [Hf|Hf]; [try discriminate Hf; injection Hf as <- <- <-; reflexivity|]). destruct Hf.
    + intros b n nm Hf. apply cum_needed in Hf. cbn in Hf. repeat (destruct Hf as [Hf|Hf]; [discriminate Hf|]). destruct Hf.
    + intros eid c Hl. apply demo_links in Hl as [-> El]. change (es_rels (demo_es [])) with demo_rels. rewrite El. split.
      * intros e He Hc. vm_compute in He. injection He as <-. vm_compute in Hc. repeat (destruct Hc as [Hc|Hc]; [discriminate Hc|]); destruct Hc.
      * intros f [Hf _] E Hc. apply cum_needed in Hf. unfold cum_fs in Hf. cbn [flat_map app] in Hf. in_cases Hf; try discriminate E; vm_compute in Hc; repeat (destruct Hc as [Hc|Hc]; [discriminate Hc|]); destruct Hc.
  - constructor.
    + intros f g [Hf _] [Hg _] E Ec _. apply cum_needed in Hf, Hg. unfold cum_fs in Hf, Hg. cbn [flat_map app] in Hf, Hg. in_cases Hf; in_cases Hg; try discriminate E; try discriminate Ec; reflexivity.
    + intros f [Hf _]. apply cum_needed in Hf. unfold cum_fs in Hf. cbn [flat_map app] in Hf. in_cases Hf; exact I.
    + intros f g a b [Hf _] _ E. apply cum_needed in Hf. unfold cum_fs in Hf. cbn [flat_map app] in Hf. in_cases Hf; discriminate E.
    + intros f d n [Hf _] E. apply cum_needed in Hf. unfold cum_fs in Hf. cbn [flat_map app] in Hf. in_cases Hf; discriminate E.
    + intros p bs path u wh prev nm [Hf _] r Hr. apply cum_needed in Hf. cbn in Hf. repeat (destruct Hf as [Hf|Hf]; [discriminate Hf|]). destruct Hf.
    + intros p bs path u w prev nm [Hf _]. apply cum_needed in Hf. cbn in Hf. repeat (destruct Hf as [Hf|Hf]; [discriminate Hf|]). destruct Hf.
    + intros r b nm b' nm' n [Hf _] _ _ _. apply cum_needed in Hf. cbn in Hf. repeat (destruct Hf as [Hf|Hf]; [discriminate Hf|]). destruct Hf.
    + intros f [Hf _]. apply cum_needed in Hf. unfold cum_fs in Hf. cbn [flat_map app] in Hf. in_cases Hf; try exact I; intros t cs _; reflexivity.
    + intros p bs nm [Hf _]. apply cum_needed in Hf. cbn in Hf. repeat (destruct Hf as [Hf|Hf]; [try discriminate Hf; injection Hf as <- <- <-; discriminate|]). destruct Hf.
    + intros p bs g nm [Hf _]. apply cum_needed in Hf. cbn in Hf. repeat (destruct Hf as [Hf|Hf]; [try discriminate Hf; injection Hf as <- <- <- <-; discriminate|]). destruct Hf.
Qed.
Example C51_matrix_nonvacuous :
  valid_request (demo_es []) demo_idvars (fun l => l) None cum_fs "event"%string /\
  (forall f, In f cum_fs -> some_value (demo_es []) 7 None true "event"%string [VNum 101; VNum 102] f) /\
  run (demo_es []) demo_idvars (fun l => l) cum_fs no_appr no_pre 7 None true [VNum 101; VNum 102] =
    Ok (mkMatrix ["CUM_SUM(amt) by sid"; "CUM_SUM(amt)"; "CUM_COUNT(amt) by sid"; "CUM_COUNT(amt)"; "CUM_MIN(amt) by sid"; "CUM_MIN(amt)";
                  "CUM_MAX(amt) by sid"; "CUM_MAX(amt)"; "DIFF(amt) by sid"; "DIFF(amt)"]%string
      [(VNum 101, [VNum 15; VNum 15; VNum 2; VNum 2; VNum 7; VNum 7; VNum 8; VNum 8; VNum 1; VNum 1]);
       (VNum 102, [VNum 9; VNum 24; VNum 1; VNum 3; VNum 9; VNum 7; VNum 9; VNum 9; VNull; VNum 1])]).
Proof.
  split; [exact cum_request|]. split.
  - intros f Hf. right; left. unfold cum_fs in Hf. cbn [flat_map app] in Hf. in_cases Hf; reflexivity.
  - vm_compute. reflexivity.
Qed.

Print Assumptions C51_cum_sum.
Print Assumptions C51_cum_count.
Print Assumptions C51_cum_min.
Print Assumptions C51_cum_max.
Print Assumptions C51_diff.
Print Assumptions C51_cum_mean.
Print Assumptions C51_matrix_grouped_partial.
Print Assumptions C51_matrix_plain_partial.

