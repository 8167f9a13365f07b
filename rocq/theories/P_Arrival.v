(** C09, C10: schedules and chunk sizes for an arbitrary calculator. *)
From Verif Require Import Base BaseFacts M_Schema M_Trie M_Table M_Query M_Feature M_FeatureSet M_Calc S_Calc X_Demo L_Frame P_ValueUse P_ValueRef M_CFM S_CFM L_CFM P_CFM P_EndToEnd.

Lemma mapM_perm {A B} (f : A -> res B) l l' r : Permutation l l' -> mapM f l = Ok r -> exists r', mapM f l' = Ok r' /\ Permutation r r'.
Proof.
  intros H. revert r. induction H as [|a l l' H IH|a b l|l l' l'' H1 IH1 H2 IH2]; intros r Hr.
  - exists r. split; [exact Hr | apply Permutation_refl].
  - cbn [mapM] in Hr |- *. apply bind_Ok in Hr as (x & Hx & Hr). apply bind_Ok in Hr as (xs & Hxs & [= <-]). destruct (IH xs Hxs) as (r' & Hr' & Hp). exists (x :: r'). rewrite Hx, Hr'. split; [reflexivity | constructor; exact Hp].
  - cbn [mapM] in Hr |- *. apply bind_Ok in Hr as (x & Hx & Hr). apply bind_Ok in Hr as (xs & Hxs & [= <-]). apply bind_Ok in Hxs as (y & Hy & Hxs). apply bind_Ok in Hxs as (ys & Hys & [= <-]).
    exists (y :: x :: ys). rewrite Hx, Hy, Hys. split; [reflexivity | constructor].
  - destruct (IH1 r Hr) as (r1 & E1 & P1). destruct (IH2 r1 E1) as (r2 & E2 & P2). exists r2. split; [exact E2 | eapply Permutation_trans; eassumption].
Qed.
Lemma concat_perm {A} (l l' : list (list A)) : Permutation l l' -> Permutation (List.concat l) (List.concat l').
Proof. induction 1 as [|a l l' H IH|a b l|l l' l'' H1 IH1 H2 IH2]; cbn [List.concat]; [constructor | apply Permutation_app_head; exact IH | rewrite !app_assoc; apply Permutation_app_tail, Permutation_app_comm | exact (Permutation_trans IH1 IH2)]. Qed.
Lemma filter_perm {A} (p : A -> bool) l l' : Permutation l l' -> Permutation (filter p l) (filter p l').
Proof. induction 1 as [|a l l' H IH|a b l|l l' l'' H1 IH1 H2 IH2]; cbn [filter]; [constructor | destruct (p a); [constructor|]; exact IH | destruct (p a), (p b); first [apply perm_swap | apply Permutation_refl] | exact (Permutation_trans IH1 IH2)]. Qed.
Lemma dget_perm {K V} (eqb : K -> K -> bool) (Hs : forall a b, reflect (a = b) (eqb a b)) (l l' : list (K * V)) k : Permutation l l' -> NoDup (map fst l) -> dget eqb k l = dget eqb k l'.
Proof.
  intros Hp Hn. assert (NoDup (map fst l')) as Hn' by (eapply Permutation_NoDup; [apply Permutation_map; exact Hp | exact Hn]).
  destruct (dget eqb k l) as [v|] eqn:E.
  - symmetry. apply (dget_In _ Hs) in E. apply (dget_NoDup_In _ Hs); [exact Hn' | eapply Permutation_in; eassumption].
  - symmetry. apply (dget_None _ Hs) in E. apply (dget_None _ Hs). intros Hx. apply E. eapply Permutation_in; [apply Permutation_map, Permutation_sym; exact Hp | exact Hx].
Qed.

Section Arrival.
  Context {P : Type}.
  Variables (calc : option P -> option window -> Z -> list val -> res matrix) (approx : list cutoff -> res P)
            (sort_ids : list val -> list val) (now : Z) (tw : option window) (pass : list string).
  Notation cfm := (cfm calc approx sort_ids now tw pass).
  Notation par := (par_chunks calc approx sort_ids now tw pass).

  Lemma par_perm appr na n a1 a2 size cut rows1 : (forall l, Permutation (a1 l) l) -> (forall l, Permutation (a2 l) l) ->
    par appr na n a1 size cut = Ok rows1 -> exists rows2, par appr na n a2 size cut = Ok rows2 /\ Permutation rows1 rows2.
  Proof.
    intros H1 H2. unfold par_chunks. intros H. apply bind_Ok in H as (k & Hk & H). apply bind_Ok in H as (chunks & Hc & H). apply bind_Ok in H as (parts & Hp & H).
    rewrite Hk. cbn [bind]. rewrite Hc. cbn [bind].
    destruct (mapM_perm _ _ (a2 chunks) _ (Permutation_trans (H1 chunks) (Permutation_sym (H2 chunks))) Hp) as (parts' & Hp' & Hperm).
    rewrite Hp'. cbn [bind]. rewrite <- (Permutation_length Hperm). destruct (Nat.eqb _ _); [discriminate|]. injection H as <-. eexists. split; [reflexivity | apply concat_perm; exact Hperm].
  Qed.

  (** with a frame of cutoff times: for every calculator, with or without approximation *)
  Theorem C10_arrival_order appr na n a1 a2 size cs0 cut fm : (forall l, Permutation (a1 l) l) -> (forall l, Permutation (a2 l) l) ->
    cfm (Workers n a1) appr na size (CFrame cs0) cut = Ok fm -> cfm (Workers n a2) appr na size (CFrame cs0) cut = Ok fm.
  Proof.
    intros H1 H2 H. unfold M_CFM.cfm in *. apply bind_Ok in H as (sz & Hsz & H). apply bind_Ok in H as (rows & Hr & H). rewrite Hsz. cbn [bind].
    destruct (par_perm _ _ _ a1 a2 _ _ _ H1 H2 Hr) as (rows2 & -> & Hp). cbn [bind reindex] in *.
    destruct (distinct_by label_eqb (map fst rows)) eqn:E; [|discriminate]. apply (distinct_by_spec _ label_eqb_spec) in E.
    rewrite (proj2 (distinct_by_spec _ label_eqb_spec _) (Permutation_NoDup (Permutation_map fst Hp) E)). rewrite <- H. f_equal. apply map_ext. intros c. cbn [snd]. destruct (c_time c); [|reflexivity].
    rewrite (dget_perm _ label_eqb_spec rows rows2 _ Hp E). reflexivity.
  Qed.

  (** with one cutoff time: for every calculator that returns one row per instance it is asked for *)
  Theorem C10_arrival_order_single appr na n a1 a2 size t ids fm : (forall l, Permutation (a1 l) l) -> (forall l, Permutation (a2 l) l) ->
    (forall is m, NoDup is -> calc None tw t is = Ok m -> map fst (m_rows m) = is) ->
    cfm (Workers n a1) appr na size (CSingle t ids) (CSingle t ids) = Ok fm -> cfm (Workers n a2) appr na size (CSingle t ids) (CSingle t ids) = Ok fm.
  Proof.
    intros H1 H2 Hc H. unfold M_CFM.cfm in *. apply bind_Ok in H as (sz & Hsz & H). apply bind_Ok in H as (rows & Hr & H). rewrite Hsz. cbn [bind].
    destruct (par_perm _ _ _ a1 a2 _ _ _ H1 H2 Hr) as (rows2 & -> & Hp). cbn [bind reindex] in *.
    destruct (distinct_by val_eqb ids) eqn:E; [|discriminate]. apply (distinct_by_spec _ val_eqb_spec) in E. rewrite <- H. f_equal. symmetry.
    (* the instances of the rows are distinct *)
    assert (NoDup (map (fun r : mrow => fst (fst r)) rows)) as Hn.
    { unfold par_chunks in Hr. apply bind_Ok in Hr as (k & Hk & Hr). apply bind_Ok in Hr as (chunks & Hch & Hr). apply bind_Ok in Hr as (parts & Hparts & Hr).
      destruct (Nat.eqb (List.length parts) 0); [discriminate|]. injection Hr as <-.
      destruct (mapM_perm _ _ chunks _ (H1 chunks) Hparts) as (parts' & Hparts' & Hperm). apply concat_perm in Hperm.
      refine (Permutation_NoDup (Permutation_map _ (Permutation_sym Hperm)) _).
      unfold chunk_single in Hch. destruct (Nat.eqb k 0) eqn:Ek; [discriminate|]. injection Hch as <-. apply Nat.eqb_neq in Ek. assert (0 < k) as Hk0 by lia.
      assert (NoDup (List.concat (slices k ids))) as Hnd by (rewrite (slices_concat k ids Hk0); exact E).
      assert (map (fun r : mrow => fst (fst r)) (List.concat parts') = List.concat (slices k ids)) as ->; [|exact Hnd].
      clear -Hc Hparts' Hnd. revert parts' Hparts' Hnd. generalize (slices k ids) as ss. induction ss as [|s ss IH]; intros parts Hparts Hnd; cbn [map mapM] in Hparts.
      - injection Hparts as <-. reflexivity.
      - apply bind_Ok in Hparts as (x & Hx & Hparts). apply bind_Ok in Hparts as (xs & Hxs & [= <-]). cbn [List.concat] in *. rewrite map_app.
        f_equal; [|apply IH; [exact Hxs | exact (NoDup_app_r _ _ Hnd)]].
        cbn [calc_chunk] in Hx. apply bind_Ok in Hx as (m & Hm & Hx). destruct (Nat.eqb _ _); [|discriminate]. injection Hx as <-. rewrite map_map. cbn [fst]. apply (Hc s m); [|exact Hm]. exact (NoDup_app_l _ _ Hnd). }
    apply flat_map_ext. intros i. assert (NoDup (map (fun r : mrow => fst (fst r)) rows2)) as Hn2 by (eapply Permutation_NoDup; [apply Permutation_map; exact Hp | exact Hn]).
    assert (forall l : list mrow, NoDup (map (fun r : mrow => fst (fst r)) l) -> List.length (filter (fun r => val_eqb (fst (fst r)) i) l) <= 1) as Hle.
    { induction l as [|r l IH]; intros Hl; [cbn; lia|]. cbn [map filter] in *. inversion Hl as [|? ? Hno Hl']; subst. destruct (val_eqb_spec (fst (fst r)) i) as [<-|]; [|apply IH; exact Hl'].
      cbn [List.length]. match goal with |- S (List.length ?x) <= 1 => enough (x = []) as -> by (cbn; lia); destruct x as [|y ys] eqn:Ef; [reflexivity|] end. exfalso.
      match type of Ef with ?x = _ => assert (In y x) as Hy by (rewrite Ef; left; reflexivity) end.
      apply filter_In in Hy as [Hy Ey]. destruct (val_eqb_spec (fst (fst y)) (fst (fst r))) as [Ey'|]; [|discriminate]. apply Hno. rewrite <- Ey'. apply (in_map (fun r : mrow => fst (fst r))). exact Hy. }
    pose proof (filter_perm (fun r : mrow => val_eqb (fst (fst r)) i) _ _ Hp) as Hfp. pose proof (Hle rows Hn) as L1.
    assert (filter (fun r : mrow => val_eqb (fst (fst r)) i) rows2 = filter (fun r : mrow => val_eqb (fst (fst r)) i) rows) as He.
    { unfold mrow in *. destruct (filter _ rows) as [|x [|y ys]]; [apply Permutation_nil; exact Hfp | apply Permutation_length_1_inv; exact Hfp | cbn in L1; lia]. }
    first [exact He | exact (eq_sym He)].
  Qed.
End Arrival.

(** the feature set calculator returns one row per instance, for all features and entity sets *)
Theorem C10_arrival_calculated es idvars ord fs incl approx sort_ids now tw pass appr na n a1 a2 size cut fm :
  (forall l, Permutation (a1 l) l) -> (forall l, Permutation (a2 l) l) ->
  cfm (calculator es idvars ord fs incl) approx sort_ids now tw pass (Workers n a1) appr na size cut cut = Ok fm ->
  cfm (calculator es idvars ord fs incl) approx sort_ids now tw pass (Workers n a2) appr na size cut cut = Ok fm.
Proof.
  intros H1 H2. destruct cut as [t ids|cs]; [|apply C10_arrival_order; assumption]. apply C10_arrival_order_single; try assumption.
  intros is m Hn Hr. exact (C08_rows_partial _ _ _ _ _ _ _ _ _ _ _ Hn Hr).
Qed.

(** But the number of workers and the chunk size matter when a primitive looks at other rows of the same call: TimeSincePrevious
    in one process, in two processes, and in chunks of one row. *)
Theorem C10_workers_refuted :
  let go m size := cfm (calculator (demo_es []) demo_idvars (fun l => l) [f_since] true) (fun _ => Ok tt) (fun l => l) 0 None [] m false false size
                     (CSingle 50 [VNum 102; VNum 103]) (CSingle 50 [VNum 102; VNum 103]) in
  let out (i : Z) (v : val) : mrow := ((VNum i, Some 50%Z), [("TIME_SINCE_PREVIOUS(t)"%string, v)]) in
  go Sequential None = Ok [out 102%Z VNull; out 103%Z (VNum 1)] /\
  go (Workers 2 (fun l => l)) None = Ok [out 102%Z VNull; out 103%Z VNull].
Proof. split; vm_compute; reflexivity. Qed.
Theorem C09_chunk_size_refuted :
  let cut := CFrame [mkCutoff (VNum 102) (Some 50%Z) None []; mkCutoff (VNum 103) (Some 50%Z) None []] in
  let go size := cfm (calculator (demo_es []) demo_idvars (fun l => l) [f_since] true) (fun _ => Ok tt) (fun l => l) 0 None [] Sequential false false size cut cut in
  let out (i : Z) (v : val) : mrow := ((VNum i, Some 50%Z), [("TIME_SINCE_PREVIOUS(t)"%string, v)]) in
  go (Some (2, 1)%Z) = Ok [out 102%Z VNull; out 103%Z (VNum 1)] /\ go (Some (1, 1)%Z) = Ok [out 102%Z VNull; out 103%Z VNull].
Proof. split; vm_compute; reflexivity. Qed.

(** Two workers, chunks that arrive in the opposite order, and more than one chunk. *)
Example C10_arrival_nonvacuous :
  let go a := cfm (calculator (demo_es []) demo_idvars (fun l => l) [f_since] true) (fun _ => Ok tt) (fun l => l) 0 None [] (Workers 2 a) false false None
                     (CSingle 50 [VNum 102; VNum 103]) (CSingle 50 [VNum 102; VNum 103]) in
  (forall l : list cutoffs, Permutation (rev l) l) /\
  go (@rev _) = Ok [((VNum 102, Some 50%Z), [("TIME_SINCE_PREVIOUS(t)"%string, VNull)]); ((VNum 103, Some 50%Z), [("TIME_SINCE_PREVIOUS(t)"%string, VNull)])].
Proof. split; [intros l; apply Permutation_sym, Permutation_rev | vm_compute; reflexivity]. Qed.

Print Assumptions C10_arrival_order.
Print Assumptions C10_arrival_order_single.
Print Assumptions C10_arrival_calculated.
Print Assumptions C10_workers_refuted.
Print Assumptions C09_chunk_size_refuted.
