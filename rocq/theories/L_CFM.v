(** Proofs about the driver of calculate_feature_matrix. *)
From Verif Require Import Base BaseFacts M_Schema M_Table M_Query M_Calc L_Frame M_CFM S_CFM.

Lemma Forall2_map_l_inv {A B C} (R : C -> B -> Prop) (f : A -> C) l l' :
  Forall2 R (map f l) l' -> Forall2 (fun a b => R (f a) b) l l'.
Proof. revert l'. induction l as [|a l IH]; intros l' H; inversion H; subst; constructor; auto. Qed.

Lemma NoDup_app_l {A} (l l' : list A) : NoDup (l ++ l') -> NoDup l.
Proof. induction l as [|a l IH]; intros H; cbn [app] in H; [constructor|]. inversion H; subst. constructor; [rewrite in_app_iff in *; tauto | auto]. Qed.
Lemma NoDup_app_r {A} (l l' : list A) : NoDup (l ++ l') -> NoDup l'.
Proof. induction l as [|a l IH]; intros H; cbn [app] in H; [exact H|]. inversion H; subst. auto. Qed.

(** ** slices *)
Lemma slices_f_concat {A} n : 0 < n -> forall fuel (l : list A), List.length l <= fuel -> List.concat (slices_f fuel n l) = l.
Proof.
  intros Hn. induction fuel as [|fuel IH]; intros [|a l] H; cbn [slices_f List.concat]; try reflexivity.
  - cbn in H. lia.
  - rewrite IH; [apply firstn_skipn|]. rewrite skipn_length. cbn [List.length] in *. lia.
Qed.
Lemma slices_concat {A} n (l : list A) : 0 < n -> List.concat (slices n l) = l.
Proof. intros H. apply slices_f_concat; [exact H | apply le_n]. Qed.

Lemma slices_f_In {A} n : 0 < n -> forall fuel (l s : list A), In s (slices_f fuel n l) -> s <> [] /\ List.length s <= n /\ List.incl s l.
Proof.
  intros Hn. induction fuel as [|fuel IH]; intros [|a l] s H; cbn [slices_f] in H; try destruct H as [<-|H]; try contradiction.
  - split; [|split].
    + destruct n; [lia | discriminate].
    + apply firstn_le_length.
    + intros x Hx. rewrite <- (firstn_skipn n (a :: l)). apply in_or_app; left; exact Hx.
  - apply IH in H as (H1 & H2 & H3). split; [exact H1|]. split; [exact H2|]. intros x Hx. rewrite <- (firstn_skipn n (a :: l)).
    apply in_or_app; right. apply H3; exact Hx.
Qed.
Lemma slices_In {A} n (l s : list A) : 0 < n -> In s (slices n l) -> s <> [] /\ List.length s <= n /\ List.incl s l.
Proof. intros H. apply slices_f_In; exact H. Qed.

Lemma slices_nonempty {A} n (l : list A) : l <> [] -> slices n l <> [].
Proof. destruct l; [congruence | discriminate]. Qed.

(** ** grouping by time *)
Lemma otime_eqb_spec a b : reflect (a = b) (otime_eqb a b).
Proof. destruct a, b; cbn; try (constructor; congruence). destruct (Z.eqb_spec z z0); constructor; congruence. Qed.
Lemma label_eqb_spec a b : reflect (a = b) (label_eqb a b).
Proof.
  destruct a as [a1 a2], b as [b1 b2]. unfold label_eqb; cbn [fst snd].
  destruct (val_eqb_spec a1 b1), (otime_eqb_spec a2 b2); cbn; constructor; congruence.
Qed.

Lemma time_keys_In time cs t : In t (time_keys time cs) <-> exists c, In c cs /\ time c = Some t.
Proof.
  unfold time_keys. split.
  - intros H. apply (Permutation_in _ (isort_perm Z.leb _)) in H. apply (dedup_In _ Z.eqb_spec) in H as [H _].
    apply in_flat_map in H as (c & Hc & H). exists c. split; [exact Hc|]. destruct (time c); cbn in H; [destruct H as [->|[]]; reflexivity | destruct H].
  - intros (c & Hc & H). eapply Permutation_in; [symmetry; apply isort_perm|]. apply (dedup_In _ Z.eqb_spec). split; [|intros []].
    apply in_flat_map. exists c. split; [exact Hc|]. rewrite H. left; reflexivity.
Qed.
Lemma time_keys_NoDup time cs : NoDup (time_keys time cs).
Proof. unfold time_keys. eapply Permutation_NoDup; [symmetry; apply isort_perm|]. apply (dedup_NoDup _ Z.eqb_spec). Qed.
Lemma time_keys_sorted time cs : StronglySorted Z.le (time_keys time cs).
Proof.
  unfold time_keys. pose proof (isort_sorted Z.leb) as H.
  assert (forall l, StronglySorted (fun x y => Z.leb x y = true) l -> StronglySorted Z.le l) as Hw.
  { induction 1; constructor; [assumption|]. eapply Forall_impl; [|eassumption]. intros x Hx. apply Z.leb_le; exact Hx. }
  apply Hw, H.
  - intros a b. rewrite !Z.leb_le. lia.
  - intros a b c. rewrite !Z.leb_le. lia.
Qed.

(** splitting by distinct keys keeps every selected element exactly once *)
Lemma filter_nil {A} (p : A -> bool) l : (forall a, In a l -> p a = false) -> filter p l = [].
Proof. induction l as [|a l IH]; intros H; cbn; [reflexivity|]. rewrite H by (left; reflexivity). apply IH. intros; apply H; right; assumption. Qed.
Lemma filter_all {A} (p : A -> bool) l : (forall a, In a l -> p a = true) -> filter p l = l.
Proof. induction l as [|a l IH]; intros H; cbn; [reflexivity|]. rewrite H by (left; reflexivity). f_equal. apply IH. intros; apply H; right; assumption. Qed.
Lemma filter_and {A} (p q : A -> bool) l : filter p (filter q l) = filter (fun a => q a && p a) l.
Proof. induction l as [|a l IH]; cbn; [reflexivity|]. destruct (q a); cbn; [destruct (p a); cbn; rewrite IH; reflexivity | exact IH]. Qed.

Lemma split_perm {A} (key : A -> option Z) ks (l : list A) :
  NoDup ks ->
  Permutation (flat_map (fun t => filter (fun a => otime_eqb (key a) (Some t)) l) ks)
              (filter (fun a => match key a with Some t => existsb (Z.eqb t) ks | None => false end) l).
Proof.
  intros Hn. induction l as [|a l IH].
  - cbn. clear Hn. induction ks as [|k ks IHk]; cbn; [reflexivity | exact IHk].
  - cbn [filter]. destruct (key a) as [t|] eqn:Et.
    + destruct (existsb (Z.eqb t) ks) eqn:Ee.
      * apply (existsb_eqb_In _ Z.eqb_spec) in Ee. rewrite <- IH. clear IH. induction ks as [|k ks IHk]; [destruct Ee|].
        inversion Hn as [|? ? Hk Hn']; subst. cbn [flat_map]. destruct Ee as [<-|Ee].
        -- cbn [otime_eqb]. rewrite Z.eqb_refl. cbn [app]. constructor. apply Permutation_app_head.
           assert (forall t, In t ks -> t <> k) as Hne by (intros; congruence). clear -Hne.
           induction ks as [|k' ks IHk]; cbn [flat_map]; [reflexivity|]. cbn [otime_eqb].
           destruct (Z.eqb_spec k k') as [->|Hd]; [exfalso; apply (Hne k'); [left; reflexivity | reflexivity]|].
           apply Permutation_app_head. apply IHk. intros; apply Hne; right; assumption.
        -- cbn [otime_eqb]. destruct (Z.eqb_spec t k) as [->|Hd]; [contradiction|].
           rewrite IHk by assumption. rewrite Permutation_middle. reflexivity.
      * rewrite <- IH. apply (existsb_eqb_nIn _ Z.eqb_spec) in Ee. clear -Ee.
        induction ks as [|k ks IHk]; cbn [flat_map]; [reflexivity|]. cbn [otime_eqb].
        destruct (Z.eqb_spec t k) as [->|Hd]; [exfalso; apply Ee; left; reflexivity|].
        apply Permutation_app_head. apply IHk. intros H; apply Ee; right; exact H.
    + rewrite <- IH. clear. induction ks as [|k ks IHk]; cbn [flat_map otime_eqb]; [reflexivity|]. apply Permutation_app_head. exact IHk.
Qed.

Definition timed (time : cutoff -> option Z) (c : cutoff) : bool := match time c with Some _ => true | None => false end.

Lemma filter_ext_In {A} (p q : A -> bool) l : (forall a, In a l -> p a = q a) -> filter p l = filter q l.
Proof. induction l as [|a l IH]; intros H; cbn; [reflexivity|]. rewrite H by (left; reflexivity). rewrite IH by (intros; apply H; right; assumption). reflexivity. Qed.

Lemma groupby_perm time cs : Permutation (flat_map snd (groupby_time time cs)) (filter (timed time) cs).
Proof.
  unfold groupby_time. rewrite flat_map_concat_map, map_map. cbn [snd]. rewrite <- flat_map_concat_map.
  rewrite split_perm by apply time_keys_NoDup. apply Permutation_refl'. apply filter_ext_In. intros c Hc. unfold timed.
  destruct (time c) as [t|] eqn:E; [|reflexivity]. apply (existsb_eqb_In _ Z.eqb_spec). apply time_keys_In. exists c; auto.
Qed.

(** grouping the rows of one time again gives that one group *)
Lemma groupby_one time t cs : cs <> [] -> (forall c, In c cs -> time c = Some t) -> groupby_time time cs = [(t, cs)].
Proof.
  intros Hne Ht. assert (time_keys time cs = [t]) as E.
  { pose proof (time_keys_NoDup time cs) as Hn. pose proof (time_keys_In time cs) as Hi.
    assert (forall k, In k (time_keys time cs) -> k = t) as Ha.
    { intros k Hk. apply Hi in Hk as (c & Hc & E). rewrite (Ht c Hc) in E. congruence. }
    destruct (time_keys time cs) as [|k ks] eqn:E.
    - exfalso. destruct cs as [|c cs]; [congruence|]. assert (In t []) as [] by (apply Hi; exists c; split; [left; reflexivity | apply Ht; left; reflexivity]).
    - rewrite (Ha k (or_introl eq_refl)) in *. destruct ks as [|k2 ks]; [reflexivity|]. exfalso. inversion Hn as [|? ? Hk _]; subst. apply Hk.
      rewrite (Ha k2 (or_intror (or_introl eq_refl))). left; reflexivity. }
  unfold groupby_time. rewrite E. cbn [map]. do 2 f_equal. apply filter_all. intros c Hc. rewrite (Ht c Hc). cbn. apply Z.eqb_refl.
Qed.

Lemma groupby_In time cs t g : In (t, g) (groupby_time time cs) ->
  g <> [] /\ g = filter (fun c => otime_eqb (time c) (Some t)) cs.
Proof.
  unfold groupby_time. intros H. apply in_map_iff in H as (k & E & Hk). injection E as -> <-. split; [|reflexivity].
  apply time_keys_In in Hk as (c & Hc & E). intros H0. assert (In c []) as []. rewrite <- H0. apply filter_In. split; [exact Hc|].
  rewrite E. cbn. apply Z.eqb_refl.
Qed.
Lemma groupby_time_of time cs t g c : In (t, g) (groupby_time time cs) -> In c g -> time c = Some t /\ In c cs.
Proof.
  intros H Hc. apply groupby_In in H as [_ ->]. apply filter_In in Hc as [Hc E]. split; [|exact Hc].
  destruct (otime_eqb_spec (time c) (Some t)); [assumption | discriminate].
Qed.
Lemma groupby_nonempty time cs : (exists c, In c cs /\ time c <> None) -> groupby_time time cs <> [].
Proof.
  intros (c & Hc & Hn). destruct (time c) as [t|] eqn:E; [|congruence]. assert (In t (time_keys time cs)) as Hk by (apply time_keys_In; eauto).
  unfold groupby_time. destruct (time_keys time cs); [destruct Hk | discriminate].
Qed.

Lemma concat_app_map {A B} (f : A -> list B) l : flat_map f l = List.concat (map f l).
Proof. apply flat_map_concat_map. Qed.

Lemma groupby_grouped cs : grouped_by_time cs (flat_map snd (groupby_time c_time cs)).
Proof.
  split; [|split].
  - unfold groupby_time. rewrite flat_map_concat_map, map_map. cbn [snd]. rewrite <- flat_map_concat_map.
    pose proof (time_keys_sorted c_time cs) as Hs. induction Hs as [|t ks Hs IH Hf]; cbn [flat_map]; [constructor|].
    assert (forall c, In c (flat_map (fun t0 => filter (fun c => otime_eqb (c_time c) (Some t0)) cs) ks) -> exists u, In u ks /\ c_time c = Some u) as Hu.
    { intros c Hc. apply in_flat_map in Hc as (u & Hu & Hc). apply filter_In in Hc as [_ E]. exists u. split; [exact Hu|].
      destruct (otime_eqb_spec (c_time c) (Some u)); [assumption | discriminate]. }
    assert (forall c, In c (filter (fun c => otime_eqb (c_time c) (Some t)) cs) -> c_time c = Some t) as Ht.
    { intros c Hc. apply filter_In in Hc as [_ E]. destruct (otime_eqb_spec (c_time c) (Some t)); [assumption | discriminate]. }
    revert Ht. induction (filter (fun c => otime_eqb (c_time c) (Some t)) cs) as [|a l IHl]; intros Ht; cbn [app]; [exact IH|].
    constructor; [apply IHl; intros; apply Ht; right; assumption|]. apply Forall_forall. intros c Hc x y Hx Hy.
    rewrite (Ht a (or_introl eq_refl)) in Hx. injection Hx as <-. apply in_app_iff in Hc as [Hc|Hc].
    + rewrite (Ht c (or_intror Hc)) in Hy. injection Hy as <-. lia.
    + apply Hu in Hc as (u & Hu1 & E). rewrite E in Hy. injection Hy as <-. rewrite Forall_forall in Hf. apply Hf; exact Hu1.
  - intros c Hc. apply in_flat_map in Hc as ((t & g) & Hg & Hc). eapply groupby_time_of in Hg as [E _]; [|exact Hc]. congruence.
  - intros t. unfold groupby_time. rewrite flat_map_concat_map, map_map. cbn [snd]. rewrite <- flat_map_concat_map.
    pose proof (time_keys_NoDup c_time cs) as Hn. pose proof (time_keys_In c_time cs t) as Hi.
    assert (forall ks, NoDup ks -> filter (fun c => otime_eqb (c_time c) (Some t)) (flat_map (fun t0 => filter (fun c => otime_eqb (c_time c) (Some t0)) cs) ks)
              = if existsb (Z.eqb t) ks then filter (fun c => otime_eqb (c_time c) (Some t)) cs else []) as HH.
    { induction ks as [|k ks IH]; intros Hk; cbn [flat_map existsb]; [reflexivity|]. inversion Hk as [|? ? Hk1 Hk2]; subst.
      rewrite filter_app, (IH Hk2), filter_and. destruct (Z.eqb_spec t k) as [->|Hd]; cbn [orb].
      - assert (existsb (Z.eqb k) ks = false) as -> by (apply (existsb_eqb_nIn _ Z.eqb_spec); exact Hk1). rewrite app_nil_r.
        apply filter_ext_In. intros c _. destruct (otime_eqb (c_time c) (Some k)); reflexivity.
      - rewrite filter_nil; [reflexivity|]. intros c _. destruct (otime_eqb_spec (c_time c) (Some k)) as [E|E]; [|reflexivity].
        rewrite E. cbn. apply Z.eqb_neq. congruence. }
    rewrite HH by exact Hn. destruct (existsb (Z.eqb t) (time_keys c_time cs)) eqn:E; [reflexivity|]. symmetry. apply filter_nil. intros c Hc.
    destruct (otime_eqb_spec (c_time c) (Some t)) as [E2|E2]; [|reflexivity]. exfalso. apply (existsb_eqb_nIn _ Z.eqb_spec) in E. apply E. apply Hi. eauto.
Qed.

(** ** chunks *)
Lemma chunk_groups_concat {A} n (gs chunks : list (Z * list A)) : 0 < n -> chunk_groups n gs = Ok chunks ->
  flat_map snd chunks = flat_map snd gs /\
  forall k s, In (k, s) chunks -> s <> [] /\ List.length s <= n /\ exists g, In (k, g) gs /\ List.incl s g.
Proof.
  unfold chunk_groups. intros Hn. destruct (Nat.eqb_spec n 0); [lia|]. cbn [andb]. intros [= <-]. split.
  - induction gs as [|[k g] gs IH]; cbn [flat_map fst snd]; [reflexivity|]. rewrite flat_map_app, IH. f_equal.
    rewrite flat_map_concat_map, map_map. cbn [snd]. rewrite map_id. apply slices_concat; exact Hn.
  - intros k s H. apply in_flat_map in H as ((k' & g) & Hg & H). cbn [fst snd] in H. apply in_map_iff in H as (s' & E & H).
    injection E as -> ->. apply slices_In in H as (H1 & H2 & H3); [|exact Hn]. eauto 6.
Qed.

Lemma chunk_groups_total {A} n (gs : list (Z * list A)) : 0 < n -> exists chunks, chunk_groups n gs = Ok chunks.
Proof. unfold chunk_groups. intros Hn. destruct (Nat.eqb_spec n 0); [lia|]. cbn [andb]. eauto. Qed.

Lemma chunk_groups_nonempty {A} n (gs chunks : list (Z * list A)) : gs <> [] -> (forall k g, In (k, g) gs -> g <> []) ->
  chunk_groups n gs = Ok chunks -> chunks <> [].
Proof.
  unfold chunk_groups. intros Hg Hne H. destruct gs as [|[k g] gs]; [congruence|]. destruct (Nat.eqb n 0 && _); [discriminate|]. injection H as <-.
  cbn [flat_map fst snd]. specialize (Hne k g (or_introl eq_refl)). pose proof (slices_nonempty n g Hne) as Hs.
  destruct (slices n g); [congruence | discriminate].
Qed.

Lemma handle_chunk_size_Ok num den total k : (0 < den)%Z -> handle_chunk_size (Some (num, den)) total = Ok (Some k) ->
  (0 < num)%Z /\ (if (num <? den)%Z then (Z.of_nat k - 1) * den < num * Z.of_nat total <= Z.of_nat k * den
                  else Z.of_nat k * den <= num < (Z.of_nat k + 1) * den)%Z.
Proof.
  unfold handle_chunk_size. intros Hd. destruct (Z.ltb_spec 0 num) as [Hp|Hp]; [|discriminate]. destruct (Z.ltb_spec num den) as [Hl|Hl]; intros [= <-]; (split; [exact Hp|]).
  - pose proof (Z.div_mod (- (num * Z.of_nat total)) den). pose proof (Z.mod_pos_bound (- (num * Z.of_nat total)) den Hd).
    set (q := ((- (num * Z.of_nat total)) / den)%Z) in *. assert (q <= 0)%Z by (unfold q; apply Z.div_le_upper_bound; nia). rewrite Z2Nat.id by lia. nia.
  - pose proof (Z.div_mod num den). pose proof (Z.mod_pos_bound num den Hd). set (q := (num / den)%Z) in *.
    assert (0 <= q)%Z by (unfold q; apply Z.div_pos; lia). rewrite Z2Nat.id by lia. nia.
Qed.

(** ** expected rows *)
Lemma distinct_by_spec {A} (eqb : A -> A -> bool) (Hs : forall a b, reflect (a = b) (eqb a b)) l : distinct_by eqb l = true <-> NoDup l.
Proof.
  unfold distinct_by. rewrite Nat.eqb_eq. split; intros H.
  - assert (forall seen l, List.length (dedup_by eqb seen l) <= List.length l) as Hle.
    { clear -Hs. intros seen l. revert seen. induction l as [|a l IH]; intros seen; cbn [dedup_by]; [apply le_n|].
      destruct (existsb (eqb a) seen); cbn [List.length]; specialize (IH seen) as H1; [lia | specialize (IH (a :: seen)); lia]. }
    assert (forall seen l, List.length (dedup_by eqb seen l) = List.length l -> NoDup l /\ forall a, In a l -> ~ In a seen) as Hgo.
    { clear H l. intros seen l. revert seen. induction l as [|a l IH]; intros seen H; cbn [dedup_by] in H.
      - split; [constructor | intros a []].
      - destruct (existsb (eqb a) seen) eqn:E; [specialize (Hle seen l); cbn [List.length] in H; lia|].
        cbn [List.length] in H. injection H as H. apply IH in H as [H1 H2]. apply (existsb_eqb_nIn _ Hs) in E. split.
        + constructor; [|exact H1]. intros Hin. apply (H2 a Hin). left; reflexivity.
        + intros b [<-|Hb]; [exact E|]. intros Hin. apply (H2 b Hb). right; exact Hin. }
    apply Hgo in H. tauto.
  - rewrite (dedup_NoDup_id _ Hs); [reflexivity | exact H | intros a _ []].
Qed.

Section Answer.
  Context {P : Type}.
  Variables (calc : option P -> option window -> Z -> list val -> res matrix)
            (approx : list cutoff -> res P) (sort_ids : list val -> list val) (now : Z) (tw : option window)
            (pass cs : list string) (v : Z -> val -> list val).
  Hypothesis Hcalc : pointwise (calc None tw) cs v.
  Hypothesis Hsort : forall l, Permutation (sort_ids l) l.

  Definition fill (k : cutoff) (r : row) : row := fold_left (fun r c => dset String.eqb c (cell c (c_pass k)) r) pass r.
  Definition expd (k : cutoff) : mrow :=
    ((c_id k, c_time k), match c_time k with Some t => fill k (combine cs (v t (c_id k))) | None => [] end).

  Lemma cell_fill k x : forall ps r,
    cell x (fold_left (fun r c => dset String.eqb c (cell c (c_pass k)) r) ps r) = if mem_str x ps then cell x (c_pass k) else cell x r.
  Proof.
    induction ps as [|p ps IH]; intros r; cbn [fold_left]; [reflexivity|]. rewrite IH, mem_str_cons. destruct (String.eqb_spec x p) as [->|Hd]; cbn [orb].
    - destruct (mem_str p ps); [reflexivity|]. unfold cell at 1. rewrite (dget_dset_same _ String.eqb_spec). reflexivity.
    - destruct (mem_str x ps); [reflexivity|]. unfold cell at 1. rewrite (dget_dset_other _ String.eqb_spec) by exact Hd. reflexivity.
  Qed.

  Lemma expd_answers k : answers pass cs v k (expd k).
  Proof.
    split; [reflexivity|]. intros x. cbn [expd snd]. unfold fill. destruct (c_time k) as [t|]; [apply cell_fill | reflexivity].
  Qed.

  Lemma label_rows_perm t g m rows :
    (forall c, In c g -> c_time c = Some t) -> NoDup (map c_id g) ->
    calc None tw t (sort_ids (map c_id g)) = Ok m ->
    label_rows pass t (List.length (sort_ids (map c_id g))) g m = Ok rows -> Permutation rows (map expd g).
  Proof.
    intros Ht Hn Hm H. apply Hcalc in Hm; [|eapply Permutation_NoDup; [symmetry; apply Hsort | exact Hn]]. subst m.
    unfold label_rows in H. cbn [m_rows] in H. rewrite map_length, Nat.eqb_refl in H. injection H as <-.
    rewrite map_map. cbn [fst snd]. unfold named. cbn [m_cols].
    rewrite (Permutation_map _ (Hsort (map c_id g))). rewrite map_map. apply Permutation_refl'. apply map_ext_in. intros k Hk.
    unfold expd, fill. rewrite (Ht k Hk). f_equal. rewrite (find_key_unique c_id g k Hn Hk). reflexivity.
  Qed.

  Lemma flat_map_perm_map {A B C} (f : A -> res (list B)) (gs : list A) parts (h : A -> list C) (e : C -> B) :
    mapM f gs = Ok parts -> (forall g p, In g gs -> f g = Ok p -> Permutation p (map e (h g))) ->
    Permutation (List.concat parts) (map e (flat_map h gs)).
  Proof.
    intros H Hf. apply mapM_Ok_Forall2 in H. induction H as [|g p gs parts Hg H IH]; cbn [List.concat flat_map map]; [reflexivity|].
    rewrite map_app. apply Permutation_app; [apply Hf; [left; reflexivity | exact Hg] | apply IH; intros; eapply Hf; [right|]; eassumption].
  Qed.

  Lemma NoDup_ids_at t g (xs : list cutoff) : NoDup (map (fun c => (c_id c, c_time c)) xs) -> (forall c, In c g -> c_time c = Some t) ->
    (exists p, g = filter p xs) -> NoDup (map c_id g).
  Proof.
    intros Hn Ht (p & ->). pose proof (NoDup_map_filter _ p _ Hn) as H. clear Hn. induction (filter p xs) as [|a l IH]; cbn [map] in *; [constructor|].
    inversion H as [|? ? H1 H2]; subst. constructor; [|apply IH; [intros; apply Ht; right; assumption | exact H2]].
    intros Hin. apply in_map_iff in Hin as (b & E & Hb). apply H1. apply in_map_iff. exists b. split; [|exact Hb].
    rewrite E, (Ht a (or_introl eq_refl)), (Ht b (or_intror Hb)). reflexivity.
  Qed.

  Lemma NoDup_incl_slice {A B} (f : A -> B) n (l s : list A) : 0 < n -> NoDup (map f l) -> In s (slices n l) -> NoDup (map f s).
  Proof.
    intros Hn Hd Hin. rewrite <- (slices_concat n l Hn) in Hd. apply in_split in Hin as (l1 & l2 & E). rewrite E in Hd.
    rewrite concat_app in Hd. cbn [List.concat] in Hd. rewrite !map_app in Hd.
    eapply NoDup_app_l. eapply NoDup_app_r. exact Hd.
  Qed.

  Lemma chunk_groups_slice {A} n (gs chunks : list (Z * list A)) k s : 0 < n -> chunk_groups n gs = Ok chunks -> In (k, s) chunks ->
    exists g, In (k, g) gs /\ In s (slices n g).
  Proof.
    unfold chunk_groups. intros Hn. destruct (Nat.eqb_spec n 0); [lia|]. cbn [andb]. intros [= <-] H.
    apply in_flat_map in H as ((k' & g) & Hg & H). cbn [fst snd] in H. apply in_map_iff in H as (s' & E & H). injection E as -> ->. eauto.
  Qed.

  Definition good_size (size : option nat) : Prop := match size with Some n => 0 < n | None => True end.

  Lemma calc_frame_perm na size xs rows :
    good_size size -> NoDup (map (fun c => (c_id c, c_time c)) xs) ->
    calc_chunk calc approx sort_ids now tw pass false na size (CFrame xs) = Ok rows ->
    Permutation rows (map expd (filter (timed c_time) xs)).
  Proof.
    intros Hsz Hn H. cbn [calc_chunk] in H. rewrite andb_false_r in H. apply bind_Ok in H as (parts & Hp & H).
    destruct (Nat.eqb (List.length parts) 0); [discriminate|]. injection H as <-.
    rewrite <- groupby_perm. eapply flat_map_perm_map; [exact Hp|]. clear Hp parts. intros (t & g) part Hg H. cbn [fst snd bind] in *.
    pose proof (fun c => groupby_time_of _ _ _ _ c Hg) as Hc. pose proof (groupby_In _ _ _ _ Hg) as [Hne Hgf].
    assert (NoDup (map c_id g)) as Hgn by (eapply NoDup_ids_at; [exact Hn | intros c Hc'; apply Hc; exact Hc' | eauto]).
    rewrite (groupby_one c_time t g) in H; [|exact Hne | intros c Hc'; apply Hc; exact Hc'].
    apply bind_Ok in H as (inner & Hi & H). apply bind_Ok in H as (ms & Hm & H). injection H as <-.
    assert (flat_map snd inner = g /\ forall k s, In (k, s) inner -> k = t /\ NoDup (map c_id s) /\ List.incl s g) as [Hfl Hin].
    { destruct size as [n|].
      - pose proof (chunk_groups_concat n _ _ Hsz Hi) as [H1 H2]. cbn [flat_map snd] in H1. rewrite app_nil_r in H1. split; [exact H1|].
        intros k s Hks. destruct (chunk_groups_slice _ _ _ _ _ Hsz Hi Hks) as (g' & [[= <- <-]|[]] & Hs). split; [reflexivity|]. split.
        + eapply NoDup_incl_slice; eassumption.
        + apply slices_In in Hs; tauto.
      - injection Hi as <-. cbn [flat_map snd]. rewrite app_nil_r. split; [reflexivity|]. intros k s [[= <- <-]|[]]. split; [reflexivity|]. split; [exact Hgn|].
        intros x Hx; exact Hx. }
    rewrite <- Hfl. eapply flat_map_perm_map; [exact Hm|]. intros (k & s) p Hks H. cbn [fst snd] in *.
    destruct (Hin _ _ Hks) as (-> & Hsn & Hsi). apply bind_Ok in H as (m & Hm' & H).
    eapply label_rows_perm; [| exact Hsn | exact Hm' | exact H]. intros c Hc'. apply Hc. apply Hsi; exact Hc'.
  Qed.

  Definition exp1 (t : Z) (i : val) : mrow := ((i, Some t), combine cs (v t i)).

  Lemma calc_single na size t ids rows :
    NoDup ids -> calc_chunk calc approx sort_ids now tw pass false na size (CSingle t ids) = Ok rows -> rows = map (exp1 t) ids.
  Proof.
    intros Hn H. cbn [calc_chunk] in H. apply bind_Ok in H as (m & Hm & H). apply Hcalc in Hm; [|exact Hn]. subst m. cbn [m_rows] in H.
    rewrite map_length, Nat.eqb_refl in H. injection H as <-. rewrite map_map. apply map_ext. intros i. reflexivity.
  Qed.

  Lemma reindex_frame xs rows : NoDup (map (fun c => (c_id c, c_time c)) xs) -> Permutation rows (map expd (filter (timed c_time) xs)) ->
    reindex (CFrame xs) rows = Ok (map expd xs).
  Proof.
    intros Hn Hp. cbn [reindex].
    assert (NoDup (map fst rows)) as Hr.
    { eapply Permutation_NoDup; [symmetry; apply Permutation_map; exact Hp|]. rewrite map_map. cbn [expd fst]. apply NoDup_map_filter; exact Hn. }
    rewrite (proj2 (distinct_by_spec _ label_eqb_spec _) Hr). f_equal. apply map_ext_in. intros k Hk. unfold expd. cbn [snd]. f_equal.
    destruct (c_time k) as [t|] eqn:Et; [|reflexivity].
    rewrite (dget_NoDup_In _ label_eqb_spec (c_id k, Some t) (snd (expd k))); [cbn [expd snd]; rewrite Et; reflexivity | exact Hr |].
    eapply Permutation_in; [symmetry; exact Hp|]. apply in_map_iff. exists k. split; [unfold expd; rewrite Et; reflexivity|].
    apply filter_In. split; [exact Hk | unfold timed; rewrite Et; reflexivity].
  Qed.

  Lemma reindex_single t ids rows : NoDup ids -> Permutation rows (map (exp1 t) ids) -> reindex (CSingle t ids) rows = Ok (map (exp1 t) ids).
  Proof.
    intros Hn Hp. cbn [reindex]. rewrite (proj2 (distinct_by_spec _ val_eqb_spec _) Hn). f_equal.
    assert (NoDup (map fst rows)) as Hr.
    { eapply Permutation_NoDup; [symmetry; apply Permutation_map; exact Hp|]. rewrite map_map. cbn [exp1 fst].
      clear -Hn. induction Hn; cbn; [constructor|]. constructor; [|assumption]. intros H1. apply in_map_iff in H1 as (y & [= <-] & Hy). contradiction. }
    assert (forall i, In i ids -> filter (fun r : mrow => val_eqb (fst (fst r)) i) rows = [exp1 t i]) as Hf.
    { intros i Hi. assert (In (exp1 t i) rows) as Hin by (eapply Permutation_in; [symmetry; exact Hp | apply in_map; exact Hi]).
      assert (forall r, In r rows -> fst (fst r) = i -> r = exp1 t i) as Hu.
      { intros r Hr0 E. eapply Permutation_in in Hr0; [|exact Hp]. apply in_map_iff in Hr0 as (j & <- & Hj). cbn in E. congruence. }
      clear Hp. induction rows as [|r rows IH]; [destruct Hin|]. cbn [filter]. cbn [map] in Hr. inversion Hr as [|? ? Hr1 Hr2]; subst.
      destruct (val_eqb_spec (fst (fst r)) i) as [E|E].
      - rewrite (Hu r (or_introl eq_refl) E). f_equal. apply filter_nil. intros b Hb. destruct (val_eqb_spec (fst (fst b)) i) as [E2|]; [|reflexivity].
        exfalso. apply Hr1. rewrite (Hu r (or_introl eq_refl) E), <- (Hu b (or_intror Hb) E2). apply in_map; exact Hb.
      - apply IH; [exact Hr2 | destruct Hin as [->|Hin]; [cbn in E; congruence | exact Hin] | intros; apply Hu; [right|]; assumption]. }
    clear Hp Hr Hn. revert Hf. induction ids as [|i ids IH]; intros Hf; cbn [flat_map map]; [reflexivity|].
    etransitivity; [apply (f_equal2 (@app mrow) (Hf i (or_introl eq_refl)) (IH (fun j Hj => Hf j (or_intror Hj))))|]. reflexivity.
  Qed.

  Definition outcome (cut : cutoffs) : list mrow :=
    match cut with CFrame xs => map expd xs | CSingle t ids => map (exp1 t) ids end.

  Lemma perm_mapM_concat {B} (f : cutoffs -> res (list B)) a chunks parts : Permutation a chunks ->
    mapM f a = Ok parts -> exists parts', mapM f chunks = Ok parts' /\ Permutation (List.concat parts) (List.concat parts').
  Proof.
    intros Hp H. apply mapM_Ok_Forall2 in H. revert parts H. induction Hp as [|x l l' Hp IH|x y l|l l' l'' Hp1 IH1 Hp2 IH2]; intros parts H.
    - inversion H; subst. exists []. split; reflexivity.
    - inversion H as [|? p ? ps Hx Hl]; subst. apply IH in Hl as (ps' & H1 & H2). exists (p :: ps'). cbn [mapM]. rewrite Hx, H1. split; [reflexivity|].
      cbn [List.concat]. apply Permutation_app_head; exact H2.
    - inversion H as [|? p ? ps Hx Hl]; subst. inversion Hl as [|? p2 ? ps2 Hx2 Hl2]; subst. exists (p2 :: p :: ps2).
      apply mapM_Ok_Forall2 in Hl2. cbn [mapM]. rewrite Hx2, Hx, Hl2. split; [reflexivity|]. cbn [List.concat]. rewrite !app_assoc.
      apply Permutation_app_tail. apply Permutation_app_comm.
    - apply IH1 in H as (p1 & H1 & H2). apply mapM_Ok_Forall2 in H1. apply IH2 in H1 as (p2 & H3 & H4). exists p2. split; [exact H3|].
      rewrite H2; exact H4.
  Qed.

  Lemma mapM_concat_map {A B C} (f : A -> res (list B)) (l : list A) parts (h : A -> list C) (e : C -> B) :
    mapM f l = Ok parts -> (forall g p, In g l -> f g = Ok p -> p = map e (h g)) -> List.concat parts = map e (flat_map h l).
  Proof.
    intros H Hf. apply mapM_Ok_Forall2 in H. induction H as [|g p gs parts Hg H IH]; cbn [List.concat flat_map map]; [reflexivity|].
    rewrite map_app, IH by (intros; eapply Hf; [right|]; eassumption). f_equal. apply Hf; [left; reflexivity | exact Hg].
  Qed.

  Lemma par_perm na n arrive size cut rows :
    0 < n -> (forall l, Permutation (arrive l) l) -> distinct_requests cut ->
    par_chunks calc approx sort_ids now tw pass false na n arrive size cut = Ok rows ->
    Permutation rows (match cut with CFrame xs => map expd (filter (timed c_time) xs) | CSingle t ids => map (exp1 t) ids end).
  Proof.
    intros Hn Ha Hd H. unfold par_chunks in H. apply bind_Ok in H as (k & Hk & H). apply bind_Ok in H as (chunks & Hc & H).
    apply bind_Ok in H as (parts & Hp & H). destruct (Nat.eqb (List.length parts) 0); [discriminate|]. injection H as <-.
    apply (perm_mapM_concat _ _ _ _ (Ha chunks)) in Hp as (parts' & Hp & Hpp). rewrite Hpp. clear Hpp parts.
    destruct cut as [t ids|xs]; cbn [distinct_requests] in Hd.
    - unfold chunk_single in Hc. destruct (Nat.eqb_spec k 0) as [->|Hk0]; [discriminate|]. injection Hc as <-.
      apply mapM_Ok_Forall2 in Hp. assert (Forall2 (fun s p => p = map (exp1 t) s) (slices k ids) parts') as HF.
      { apply Forall2_map_l_inv in Hp. eapply Forall2_impl; [|exact Hp]. intros s p Hs _ H. eapply calc_single; [|exact H].
        rewrite <- (map_id s). eapply NoDup_incl_slice; [|rewrite map_id; exact Hd | exact Hs]. lia. }
      assert (List.concat parts' = map (exp1 t) (List.concat (slices k ids))) as ->.
      { clear -HF. induction HF as [|s p ss ps Hs H IH]; cbn [List.concat]; [reflexivity|]. rewrite map_app, IH, Hs. reflexivity. }
      rewrite slices_concat by lia. reflexivity.
    - apply bind_Ok in Hc as (gs & Hg & Hc). injection Hc as <-.
      destruct (Nat.eqb_spec k 0) as [->|Hk0].
      { unfold chunk_groups in Hg. cbn [Nat.eqb andb] in Hg. destruct (groupby_time c_time xs) eqn:E; cbn in Hg; [|discriminate].
        injection Hg as <-. cbn in Hp. injection Hp as <-. cbn [List.concat]. pose proof (groupby_perm c_time xs) as HH. rewrite E in HH. cbn in HH.
        apply Permutation_map with (f := expd) in HH. exact HH. }
      assert (0 < k) as Hk' by lia. pose proof (chunk_groups_concat _ _ _ Hk' Hg) as [Hcc Hin].
      rewrite <- groupby_perm, <- Hcc.
      apply mapM_Ok_Forall2 in Hp. apply Forall2_map_l_inv in Hp.
      apply (mapM_Ok_Forall2 (fun kg => calc_chunk calc approx sort_ids now tw pass false na None (CFrame (snd kg)))) in Hp.
      eapply flat_map_perm_map; [exact Hp|]. intros (t & s) p Hts H. cbn [snd] in *.
      destruct (chunk_groups_slice _ _ _ _ _ Hk' Hg Hts) as (g & Hgg & Hs).
      assert (filter (timed c_time) s = s) as E.
      { apply filter_all. intros c Hc. apply slices_In in Hs as (_ & _ & Hsi); [|exact Hk']. apply Hsi in Hc. eapply groupby_time_of in Hgg as [E _]; [|exact Hc].
        unfold timed. rewrite E. reflexivity. }
      rewrite <- E. eapply (calc_frame_perm na None); [exact I | | exact H].
      eapply NoDup_incl_slice; [exact Hk' | | exact Hs]. apply groupby_In in Hgg as [_ ->]. apply NoDup_map_filter; exact Hd.
  Qed.

  Lemma good_size_handle num den total size : (0 < den)%Z -> 0 < total -> handle_chunk_size (Some (num, den)) total = Ok size -> good_size size.
  Proof.
    intros Hd Ht H. destruct size as [k|]; [|exact I]. pose proof (handle_chunk_size_Ok _ _ _ _ Hd H) as [Hp Hk]. cbn.
    destruct (Z.ltb_spec num den); nia.
  Qed.

  Lemma calc_empty_frame na size : calc_chunk calc approx sort_ids now tw pass false na size (CFrame []) = Err ValueError.
  Proof. reflexivity. Qed.

  Theorem cfm_outcome m na size cut fm :
    fair m -> (forall n a, m = Workers n a -> 0 < n) -> (forall num den, size = Some (num, den) -> (0 < den)%Z) -> distinct_requests cut ->
    cfm calc approx sort_ids now tw pass m false na size cut cut = Ok fm -> fm = outcome cut.
  Proof.
    intros Hm Hw Hs Hd H. unfold cfm in H. apply bind_Ok in H as (sz & Hsz & H). apply bind_Ok in H as (rows & Hr & H).
    assert (Permutation rows (match cut with CFrame xs => map expd (filter (timed c_time) xs) | CSingle t ids => map (exp1 t) ids end)) as Hp.
    { destruct m as [|n arrive].
      - destruct cut as [t ids|xs].
        + apply Permutation_refl'. eapply calc_single; [exact Hd | exact Hr].
        + destruct xs as [|x xs]; [rewrite calc_empty_frame in Hr; discriminate|].
          eapply calc_frame_perm; [| exact Hd | exact Hr].
          destruct size as [[num den]|]; [|injection Hsz as <-; exact I]. eapply good_size_handle; [eapply Hs; reflexivity | | exact Hsz]. cbn; lia.
      - eapply par_perm; [eapply Hw; reflexivity | exact Hm | exact Hd | exact Hr]. }
    destruct cut as [t ids|xs]; cbn [outcome].
    - rewrite (reindex_single t ids rows Hd Hp) in H. congruence.
    - rewrite (reindex_frame xs rows Hd Hp) in H. congruence.
  Qed.

  (** ** totality *)
  Variable ok_time : Z -> Prop.
  Hypothesis Hnf : never_fails ok_time (calc None tw).

  Lemma mapM_total {A B} (f : A -> res B) l : (forall a, In a l -> exists b, f a = Ok b) -> exists bs, mapM f l = Ok bs.
  Proof.
    induction l as [|a l IH]; intros H; cbn [mapM]; [eauto|]. destruct (H a (or_introl eq_refl)) as (b & ->). cbn [bind].
    destruct IH as (bs & ->); [intros; apply H; right; assumption|]. cbn [bind]. eauto.
  Qed.

  Lemma sort_nonempty l : l <> [] -> sort_ids l <> [].
  Proof. intros H E. pose proof (Hsort l) as Hp. rewrite E in Hp. apply Permutation_nil in Hp. contradiction. Qed.

  Lemma mapM_length {A B} (f : A -> res B) l bs : mapM f l = Ok bs -> List.length bs = List.length l.
  Proof. intros H. apply mapM_Ok_Forall2 in H. induction H; cbn; congruence. Qed.

  Lemma calc_frame_total na size xs : good_size size -> (exists c, In c xs /\ c_time c <> None) ->
    NoDup (map (fun c => (c_id c, c_time c)) xs) -> (forall t, requested_time (CFrame xs) t -> ok_time t) ->
    exists rows, calc_chunk calc approx sort_ids now tw pass false na size (CFrame xs) = Ok rows.
  Proof.
    intros Hsz Hne Hn Hok. cbn [calc_chunk]. rewrite andb_false_r. 
    match goal with |- exists rows, bind (mapM ?f ?l) _ = _ => destruct (mapM_total f l) as (parts & Hp) end.
    - intros (t & g) Hg. cbn [fst snd bind].
      pose proof (fun c => groupby_time_of _ _ _ _ c Hg) as Hc. pose proof (groupby_In _ _ _ _ Hg) as [Hgne Hgf].
      assert (NoDup (map c_id g)) as Hgn by (eapply NoDup_ids_at; [exact Hn | intros c Hc'; apply Hc; exact Hc' | eauto]).
      rewrite (groupby_one c_time t g); [|exact Hgne | intros c Hc'; apply Hc; exact Hc'].
      assert (exists inner, match size with Some n => chunk_groups n [(t, g)] | None => Ok [(t, g)] end = Ok inner /\
                forall k s, In (k, s) inner -> k = t /\ s <> [] /\ NoDup (map c_id s)) as (inner & -> & Hin).
      { destruct size as [n|].
        - destruct (chunk_groups_total n [(t, g)] Hsz) as (inner & Hi). exists inner. split; [exact Hi|]. intros k s Hks.
          destruct (chunk_groups_slice _ _ _ _ _ Hsz Hi Hks) as (g' & [[= <- <-]|[]] & Hs). split; [reflexivity|]. split.
          + apply slices_In in Hs; [tauto | exact Hsz].
          + eapply NoDup_incl_slice; eassumption.
        - exists [(t, g)]. split; [reflexivity|]. intros k s [[= <- <-]|[]]. auto. }
      cbn [bind].
      match goal with |- exists rows, bind (mapM ?f ?l) _ = _ => destruct (mapM_total f l) as (ms & Hm) end.
      + intros (k & s) Hks. cbn [fst snd]. destruct (Hin _ _ Hks) as (-> & Hs1 & Hs2).
        destruct (Hnf t (sort_ids (map c_id s))) as (m & Hm); [| apply sort_nonempty; destruct s; [congruence | discriminate] | eapply Permutation_NoDup; [symmetry; apply Hsort | exact Hs2]|].
        { apply Hok. destruct g as [|c g]; [congruence|]. exists c. split; [|apply Hc; left; reflexivity]. assert (In c (c :: g)) as Hcg by (left; reflexivity). rewrite Hgf in Hcg. apply filter_In in Hcg. apply Hcg. }
        rewrite Hm. cbn [bind]. apply Hcalc in Hm; [|eapply Permutation_NoDup; [symmetry; apply Hsort | exact Hs2]]. subst m.
        unfold label_rows. cbn [m_rows]. rewrite map_length, Nat.eqb_refl. eauto.
      + rewrite Hm. cbn [bind]. eauto.
    - rewrite Hp. cbn [bind]. apply mapM_length in Hp. pose proof (groupby_nonempty c_time xs Hne) as Hg.
      destruct (groupby_time c_time xs); [congruence|]. rewrite Hp. cbn. eauto.
  Qed.

  Lemma arrive_nonempty {A} (arrive : list A -> list A) l : Permutation (arrive l) l -> l <> [] -> arrive l <> [].
  Proof. intros Hp H E. rewrite E in Hp. apply Permutation_nil in Hp. contradiction. Qed.

  Theorem cfm_total m na size cut :
    fair m -> (forall n a, m = Workers n a -> 0 < n) ->
    (forall num den, size = Some (num, den) -> (0 < den)%Z /\ (0 < num)%Z) -> distinct_requests cut -> some_request cut ->
    (forall t, requested_time cut t -> ok_time t) ->
    exists fm, cfm calc approx sort_ids now tw pass m false na size cut cut = Ok fm.
  Proof.
    intros Hm Hw Hs Hd Hr Hok. unfold cfm.
    assert (0 < cut_len cut) as Hl.
    { destruct cut as [t ids|xs]; cbn in *; [destruct ids; [congruence | cbn; lia]|]. destruct Hr as (c & Hc & _). destruct xs; [destruct Hc | cbn; lia]. }
    assert (exists sz, handle_chunk_size size (cut_len cut) = Ok sz /\ good_size sz) as (sz & -> & Hg).
    { destruct size as [[num den]|]; [|exists None; split; [reflexivity | exact I]]. destruct (Hs _ _ eq_refl) as [Hd' Hn'].
      assert (exists sz, handle_chunk_size (Some (num, den)) (cut_len cut) = Ok sz) as (sz & E).
      { unfold handle_chunk_size. destruct (Z.ltb_spec 0 num); [|lia]. destruct (num <? den)%Z; eauto. }
      exists sz. split; [exact E|]. exact (good_size_handle _ _ _ _ Hd' Hl E). }
    cbn [bind].
    assert (exists rows, match m with
               | Sequential => calc_chunk calc approx sort_ids now tw pass false na sz cut
               | Workers n arrive => par_chunks calc approx sort_ids now tw pass false na n arrive sz cut
               end = Ok rows) as (rows & Hrows).
    { destruct m as [|n arrive].
      - destruct cut as [t ids|xs]; cbn [distinct_requests some_request] in *.
        + cbn [calc_chunk]. destruct (Hnf t ids (Hok t eq_refl) Hr Hd) as (mm & Hmm). rewrite Hmm. cbn [bind]. apply Hcalc in Hmm; [|exact Hd]. subst mm. cbn [m_rows].
          rewrite map_length, Nat.eqb_refl. eauto.
        + apply calc_frame_total; assumption.
      - specialize (Hw _ _ eq_refl). unfold par_chunks.
        assert (exists k, match sz with
                 | Some (S n) => Ok (S n)
                 | _ => match handle_chunk_size (Some (1, Z.of_nat n)%Z) (cut_len cut) with
                        | Ok (Some n) => Ok n | Ok None => Err AssertionError | Err e => Err e end
                 end = Ok k /\ 0 < k) as (k & -> & Hk).
        { destruct sz as [[|k]|]; cbn in Hg; [lia | exists (S k); split; [reflexivity | lia] |].
          destruct (handle_chunk_size (Some (1%Z, Z.of_nat n)) (cut_len cut)) as [[k|]|e] eqn:E.
          - exists k. split; [reflexivity|]. apply handle_chunk_size_Ok in E as [_ E]; [|lia]. destruct (Z.ltb_spec 1 (Z.of_nat n)); nia.
          - unfold handle_chunk_size in E. cbn [Z.ltb Z.compare] in E. destruct (1 <? Z.of_nat n)%Z; discriminate.
          - unfold handle_chunk_size in E. cbn [Z.ltb Z.compare] in E. destruct (1 <? Z.of_nat n)%Z; discriminate. }
        cbn [bind]. cbn [fair] in Hm.
        assert (exists chunks, match cut with
                 | CSingle t ids => chunk_single k t ids
                 | CFrame xs => do gs <- chunk_groups k (groupby_time c_time xs); Ok (map (fun kg => CFrame (snd kg)) gs)
                 end = Ok chunks /\ chunks <> [] /\
                 forall c, In c chunks -> exists rows, calc_chunk calc approx sort_ids now tw pass false na None c = Ok rows) as (chunks & -> & Hne & Hall).
        { destruct cut as [t ids|xs]; cbn [distinct_requests some_request] in *.
          - unfold chunk_single. destruct (Nat.eqb_spec k 0); [lia|]. eexists. split; [reflexivity|]. split.
            + pose proof (slices_nonempty k ids Hr). destruct (slices k ids); [congruence | discriminate].
            + intros c Hc. apply in_map_iff in Hc as (s & <- & Hs'). cbn [calc_chunk].
              assert (NoDup s) as Hsn by (rewrite <- (map_id s); eapply NoDup_incl_slice; [| rewrite map_id; exact Hd | exact Hs']; lia).
              apply slices_In in Hs' as (Hs1 & _); [|exact Hk]. destruct (Hnf t s (Hok t eq_refl) Hs1 Hsn) as (mm & Hmm). rewrite Hmm. cbn [bind].
              apply Hcalc in Hmm; [|exact Hsn]. subst mm. cbn [m_rows]. rewrite map_length, Nat.eqb_refl. eauto.
          - destruct (chunk_groups_total k (groupby_time c_time xs) Hk) as (gs & Hgs). rewrite Hgs. cbn [bind]. eexists. split; [reflexivity|]. split.
            + assert (gs <> []) as Hgn.
              { eapply chunk_groups_nonempty; [apply groupby_nonempty; exact Hr | | exact Hgs]. intros t g Hin. apply groupby_In in Hin. tauto. }
              destruct gs; [congruence | discriminate].
            + intros c Hc. apply in_map_iff in Hc as ((t & s) & <- & Hts). cbn [snd].
              destruct (chunk_groups_slice _ _ _ _ _ Hk Hgs Hts) as (g & Hgg & Hs').
              apply (calc_frame_total na None); [exact I | | |].
              * pose proof (slices_In _ _ _ Hk Hs') as (Hs1 & _ & Hs3). destruct s as [|c s]; [congruence|]. exists c. split; [left; reflexivity|].
                eapply groupby_time_of in Hgg as [E _]; [|apply Hs3; left; reflexivity]. congruence.
              * eapply NoDup_incl_slice; [exact Hk | | exact Hs']. apply groupby_In in Hgg as [_ ->]. apply NoDup_map_filter; exact Hd.
              * intros u (c & Hc & Eu). apply Hok. exists c. split; [|exact Eu]. pose proof (slices_In _ _ _ Hk Hs') as (_ & _ & Hs3). apply Hs3 in Hc. apply groupby_In in Hgg as [_ ->]. apply filter_In in Hc. apply Hc. }
        cbn [bind]. destruct (mapM_total (calc_chunk calc approx sort_ids now tw pass false na None) (arrive chunks)) as (parts & Hp).
        + intros c Hc. apply Hall. eapply Permutation_in; [apply Hm | exact Hc].
        + rewrite Hp. cbn [bind]. apply mapM_length in Hp. pose proof (arrive_nonempty arrive chunks (Hm chunks) Hne) as Hna.
          destruct (arrive chunks); [congruence|]. rewrite Hp. cbn. eauto. }
    rewrite Hrows. cbn [bind].
    destruct m as [|n arrive].
    - destruct cut as [t ids|xs]; cbn [distinct_requests] in Hd.
      + apply calc_single in Hrows; [|exact Hd]. subst rows. rewrite reindex_single; [eauto | exact Hd | reflexivity].
      + apply calc_frame_perm in Hrows; [|exact Hg | exact Hd]. rewrite reindex_frame; [eauto | exact Hd | exact Hrows].
    - apply par_perm in Hrows; [|eapply Hw; reflexivity | exact Hm | exact Hd]. destruct cut as [t ids|xs]; cbn [distinct_requests] in Hd.
      + rewrite reindex_single; [eauto | exact Hd | exact Hrows].
      + rewrite reindex_frame; [eauto | exact Hd | exact Hrows].
  Qed.
End Answer.
