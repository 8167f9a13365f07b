From Verif Require Import Base BaseFacts M_Schema M_Feature M_Select M_Encode S_Select S_Encode P_Select.

(** dictionaries *)
Lemma dget_fold_dset {V} (l : list (string * V)) : forall d n, NoDup (map fst l) ->
  dget String.eqb n (fold_left (fun X kv => dset String.eqb (fst kv) (snd kv) X) l d) =
  match dget String.eqb n l with Some v => Some v | None => dget String.eqb n d end.
Proof.
  induction l as [|[k v] l IH]; intros d n H; cbn [fold_left dget fst snd map] in *; [reflexivity|]. inversion H; subst. rewrite IH by assumption.
  destruct (String.eqb_spec n k) as [->|Hn].
  - rewrite (proj2 (dget_None _ String.eqb_spec k l)) by assumption. apply (dget_dset_same _ String.eqb_spec).
  - destruct (dget String.eqb n l); [reflexivity|]. apply (dget_dset_other _ String.eqb_spec). congruence.
Qed.
Lemma fold_dset_NoDup {V} (l : list (string * V)) : forall d, NoDup (map fst d) ->
  NoDup (map fst (fold_left (fun X kv => dset String.eqb (fst kv) (snd kv) X) l d)).
Proof. induction l as [|kv l IH]; intros d H; cbn [fold_left]; [exact H|]. apply IH. apply (dset_NoDup _ String.eqb_spec). exact H. Qed.
Lemma dget_filter_ne {V} (d : list (string * V)) k n :
  dget String.eqb n (filter (fun c => negb (String.eqb (fst c) k)) d) = if String.eqb n k then None else dget String.eqb n d.
Proof.
  induction d as [|[k' v] d IH]; cbn [filter fst dget]; [destruct (String.eqb n k); reflexivity|].
  destruct (String.eqb_spec k' k) as [->|Hk]; cbn [negb].
  - rewrite IH. destruct (String.eqb_spec n k); reflexivity.
  - cbn [dget]. rewrite IH. destruct (String.eqb_spec n k') as [->|Hn]; [|reflexivity]. destruct (String.eqb_spec k' k); [contradiction | reflexivity].
Qed.
Lemma filter_keys_NoDup {V} (p : string * V -> bool) (d : list (string * V)) : NoDup (map fst d) -> NoDup (map fst (filter p d)).
Proof.
  induction d as [|c d IH]; cbn [map filter]; intros H; [constructor|]. inversion H; subst. destruct (p c); [|auto]. cbn [map]. constructor; [|auto].
  intros Hin. apply H2. apply in_map_iff in Hin as (x & E & Hx). apply filter_In in Hx as [Hx _]. rewrite <- E. apply in_map. exact Hx.
Qed.

Lemma select_known cols (X : fmatrix) : NoDup (map fst X) -> incl cols (map fst X) ->
  map fst (select cols X) = cols /\ forall n, In n cols -> dget String.eqb n (select cols X) = dget String.eqb n X.
Proof.
  intros Hn Hi.
  assert (forall k, In k (map fst X) -> exists c, filter (fun c => String.eqb (fst c) k) X = [(k, c)] /\ dget String.eqb k X = Some c) as Hone.
  { clear Hi. induction X as [|[k' c'] X IH]; intros k Hk; [destruct Hk|]. cbn [map fst] in *. inversion Hn; subst. cbn [filter dget fst]. rewrite String.eqb_sym.
    destruct (String.eqb_spec k k') as [->|Hd].
    - rewrite filter_fst_none by assumption. eauto.
    - destruct Hk as [Hk|Hk]; [congruence|]. apply IH; assumption. }
  induction cols as [|k cols IH]; [split; [reflexivity | intros n []]|]. destruct IH as [IH1 IH2]; [intros x Hx; apply Hi; right; exact Hx|].
  unfold select. cbn [flat_map]. fold (select cols X). destruct (Hone k (Hi k (or_introl eq_refl))) as (c & -> & Hc). split.
  - cbn [app map fst]. rewrite IH1. reflexivity.
  - intros n Hin. cbn [app dget]. destruct (String.eqb_spec n k) as [->|Hd]; [symmetry; exact Hc|]. destruct Hin as [->|Hin]; [congruence|]. apply IH2. exact Hin.
Qed.

Lemma NoDup_map_incl {A B} (g : A -> B) l L : NoDup (map g L) -> NoDup l -> incl l L -> NoDup (map g l).
Proof.
  intros HL. assert (forall a b, In a L -> In b L -> g a = g b -> a = b) as Hinj.
  { induction L as [|x L IH]; intros a b Ha Hb E; [destruct Ha|]. cbn [map] in HL. inversion HL; subst. destruct Ha as [->|Ha], Hb as [->|Hb]; auto.
    - exfalso. apply H1. rewrite E. apply in_map; exact Hb.
    - exfalso. apply H1. rewrite <- E. apply in_map; exact Ha. }
  intros Hl Hi. induction Hl as [|a l Hn Hl IH]; cbn [map]; constructor.
  - intros Hin. apply in_map_iff in Hin as (b & E & Hb). apply Hn. rewrite (Hinj a b); [exact Hb | apply Hi; left; reflexivity | apply Hi; right; exact Hb | symmetry; exact E].
  - apply IH. intros x Hx. apply Hi. right. exact Hx.
Qed.

Lemma NoDup_app_iff {A} (a b : list A) : NoDup (a ++ b) <-> NoDup a /\ NoDup b /\ forall x, In x a -> ~ In x b.
Proof.
  induction a as [|x a IH]; cbn [app].
  - split; [intros H; repeat split; [constructor | exact H | intros x []] | tauto].
  - split.
    + intros H. inversion H; subst. apply IH in H3 as (Ha & Hb & Hd). repeat split; auto.
      * constructor; [|exact Ha]. intros Hin; apply H2; apply in_or_app; left; exact Hin.
      * intros y [->|Hy]; [intros Hin; apply H2; apply in_or_app; right; exact Hin | apply Hd; exact Hy].
    + intros (Ha & Hb & Hd). inversion Ha; subst. constructor.
      * intros Hin. apply in_app_iff in Hin as [Hin|Hin]; [contradiction|]. apply (Hd x (or_introl eq_refl)). exact Hin.
      * apply IH. repeat split; auto. intros y Hy. apply Hd. right. exact Hy.
Qed.

(** values of a column *)
Lemma values_spec col v : In v (values col) <-> In v col /\ v <> VNull.
Proof.
  unfold values. rewrite (dedup_In _ val_eqb_spec), filter_In. split.
  - intros [[H1 H2] _]. split; [exact H1|]. intros ->. discriminate.
  - intros [H1 H2]. split; [|intros []]. split; [exact H1|]. destruct v; [congruence | reflexivity ..].
Qed.
Lemma values_NoDup col : NoDup (values col).
Proof. apply (dedup_NoDup _ val_eqb_spec). Qed.

Lemma head_firstn {A} (n : Z) (l : list A) : exists k, head n l = firstn k l.
Proof. unfold head. destruct (0 <=? n)%Z; eauto. Qed.

Section Run.
  Variables (rels : list relationship) (discrete : feat -> bool) (vleb : val -> val -> bool).
  Variables (top : top_n_arg) (unknown drop_first : bool) (to_encode : option (list string)).
  Variable m : fmatrix.
  Let ne := not_encoded rels discrete to_encode.
  Let one := encode_one rels discrete vleb top unknown drop_first to_encode.
  Let fn := fname rels.

  Definition col_of (f : feat) : list val := column m (fn f).
  Definition labels (f : feat) : list val :=
    match select_n top drop_first (fn f) (List.length (value_counts (col_of f))) with
    | Ok k => head k (ordered_values vleb (col_of f))
    | Err _ => []
    end.
  Definition ind (f : feat) (l : val) : list val := map (fun v => VBool (negb (is_null v) && val_eqb v l)) (col_of f).
  Definition unk (f : feat) : list val := map (fun v => VBool (negb (mem_val v (labels f)))) (col_of f).
  Definition adds (f : feat) : fmatrix :=
    if ne f then [] else map (fun l => (label_name rels f l, ind f l)) (labels f) ++ (if unknown then [(unknown_name rels f, unk f)] else []).
  Definition feats (f : feat) : list feat :=
    if ne f then [f] else map (f_equals f) (labels f) ++ (if unknown then [f_unknown f (labels f) (unknown_name rels f)] else []).
  Definition drops (f : feat) : list string := if ne f then [] else [fn f].

  Lemma ordered_perm col : Permutation (ordered_values vleb col) (values col).
  Proof.
    unfold ordered_values. rewrite <- (map_id (values col)). transitivity (map fst (value_counts col)).
    - apply Permutation_map. apply isort_perm.
    - unfold value_counts. rewrite map_map. reflexivity.
  Qed.
  Lemma labels_incl f : incl (labels f) (values (col_of f)).
  Proof.
    unfold labels. destruct (select_n _ _ _ _) as [k|]; [|intros x []]. destruct (head_firstn k (ordered_values vleb (col_of f))) as (n & ->).
    intros x Hx. apply (Permutation_in _ (ordered_perm (col_of f))). rewrite <- (firstn_skipn n). apply in_or_app; left; exact Hx.
  Qed.
  Lemma labels_NoDup f : NoDup (labels f).
  Proof.
    unfold labels. destruct (select_n _ _ _ _) as [k|]; [|constructor]. destruct (head_firstn k (ordered_values vleb (col_of f))) as (n & ->).
    assert (NoDup (ordered_values vleb (col_of f))) as H by (eapply Permutation_NoDup; [apply Permutation_sym, ordered_perm | apply values_NoDup]).
    rewrite <- (firstn_skipn n) in H. apply NoDup_app_iff in H. apply H.
  Qed.

  Lemma adds_names f : incl (map fst (adds f)) (if ne f then [] else new_names rels m f).
  Proof.
    unfold adds. destruct (ne f); [intros x []|]. unfold new_names. intros n Hn. rewrite map_app, map_map in Hn. cbn [fst] in Hn. apply in_app_iff in Hn as [Hn|Hn]; apply in_or_app.
    - left. apply in_map_iff in Hn as (l & <- & Hl). apply in_map. apply labels_incl. exact Hl.
    - right. destruct unknown; [exact Hn | destruct Hn].
  Qed.
  Lemma adds_NoDup f : NoDup (if ne f then [] else new_names rels m f) -> NoDup (map fst (adds f)).
  Proof.
    unfold adds. destruct (ne f); [intros; constructor|]. unfold new_names. intros H. apply NoDup_app_iff in H as (Ha & Hb & Hd). rewrite map_app, map_map. cbn [fst]. apply NoDup_app_iff.
    split; [|split].
    - apply (NoDup_map_incl _ _ _ Ha (labels_NoDup f)). apply labels_incl.
    - destruct unknown; [exact Hb | constructor].
    - intros x Hx. assert (In x (map (label_name rels f) (values (column m (fname rels f))))) as Hx'.
      { apply in_map_iff in Hx as (l & <- & Hl). apply in_map. apply labels_incl. exact Hl. }
      specialize (Hd x Hx'). destruct unknown; [exact Hd | intros []].
  Qed.

  Lemma fold_adds f X : fold_left (fun X l => dset String.eqb (fname rels (f_equals f l)) (map (fun v => VBool (negb (is_null v) && val_eqb v l)) (col_of f)) X) (labels f) X =
    fold_left (fun X kv => dset String.eqb (fst kv) (snd kv) X) (map (fun l => (label_name rels f l, ind f l)) (labels f)) X.
  Proof. generalize (labels f) as ls. intros ls. revert X. induction ls as [|l ls IH]; intros X; [reflexivity|]. cbn [fold_left map fst snd]. rewrite <- IH. reflexivity. Qed.

  Lemma feats_names f : NoDup (fnames rels f) -> flat_map (fnames rels) (feats f) = if ne f then fnames rels f else map fst (adds f).
  Proof.
    intros _. unfold feats, adds. destruct (ne f); [cbn; rewrite app_nil_r; reflexivity|]. rewrite flat_map_app, map_app, map_map. cbn [fst]. f_equal.
    - generalize (labels f) as ls. induction ls as [|l ls IH]; [reflexivity|]. cbn [map flat_map]. rewrite IH. reflexivity.
    - destruct unknown; [|reflexivity]. cbn [flat_map map fst]. rewrite app_nil_r. unfold fnames, f_unknown, unknown_name. cbn [fnaming snd p_nout p_not Nat.eqb or_given].
      destruct (fname rels f ++ " is unknown")%string eqn:E; [|reflexivity]. destruct (fname rels f); discriminate.
  Qed.

  (** one step *)
  Lemma one_step s f s' : dget String.eqb (fn f) (e_X s) = dget String.eqb (fn f) m -> NoDup (map fst (adds f)) -> ~ In (fn f) (map fst (adds f)) ->
    one s f = Ok s' ->
    e_feats s' = e_feats s ++ feats f /\
    e_cols s' = e_cols s ++ flat_map (fnames rels) (feats f) /\
    (forall n, dget String.eqb n (e_X s') = if mem_str n (drops f) then None else match dget String.eqb n (adds f) with Some c => Some c | None => dget String.eqb n (e_X s) end) /\
    (NoDup (map fst (e_X s)) -> NoDup (map fst (e_X s'))).
  Proof.
    intros Hc Hn Hf H. unfold one, encode_one in H. fold ne in H. unfold feats, adds, drops in *. destruct (ne f) eqn:En.
    - injection H as <-. cbn [e_X e_feats e_cols flat_map dget mem_str existsb]. rewrite app_nil_r. auto.
    - unfold tget in H. fold fn in H. rewrite Hc in H. apply bind_Ok in H as (col & Hcol & H). destruct (dget String.eqb (fn f) m) as [c|] eqn:Em; [|discriminate]. injection Hcol as ->.
      apply bind_Ok in H as (k & Hk & H). injection H as <-. cbn [e_X e_feats e_cols].
      assert (col_of f = col) as Ecol by (unfold col_of, column; rewrite Em; reflexivity).
      assert (labels f = head k (ordered_values vleb col)) as El by (unfold labels; rewrite Ecol, Hk; reflexivity).
      rewrite <- El, <- Ecol. rewrite fold_adds. split; [reflexivity|]. split; [|split].
      + pose proof (feats_names f) as Hfn. unfold feats, adds in Hfn. rewrite En in Hfn. rewrite flat_map_app. f_equal. f_equal.
        * generalize (labels f) as ls. induction ls as [|l ls IH]; [reflexivity|]. cbn [map flat_map]. rewrite IH. reflexivity.
        * destruct unknown; [|reflexivity]. cbn [flat_map]. unfold fnames, f_unknown, unknown_name. cbn [fnaming snd p_nout p_not Nat.eqb or_given].
          fold fn. destruct (fn f ++ " is unknown")%string eqn:E; [|reflexivity]. destruct (fn f); discriminate.
      + intros n. rewrite dget_filter_ne. cbn [mem_str existsb orb]. rewrite orb_false_r. destruct (String.eqb n (fn f)); [reflexivity|].
        assert ((if unknown then dset String.eqb (fn f ++ " is unknown")%string (map (fun v => VBool (negb (mem_val v (labels f)))) (col_of f)) (fold_left (fun X kv => dset String.eqb (fst kv) (snd kv) X) (map (fun l => (label_name rels f l, ind f l)) (labels f)) (e_X s)) else fold_left (fun X kv => dset String.eqb (fst kv) (snd kv) X) (map (fun l => (label_name rels f l, ind f l)) (labels f)) (e_X s)) =
          fold_left (fun X kv => dset String.eqb (fst kv) (snd kv) X) (map (fun l => (label_name rels f l, ind f l)) (labels f) ++ (if unknown then [(unknown_name rels f, unk f)] else [])) (e_X s)) as ->.
        { rewrite fold_left_app. destruct unknown; reflexivity. }
        apply dget_fold_dset. exact Hn.
      + intros HX. apply filter_keys_NoDup. destruct unknown; [apply (dset_NoDup _ String.eqb_spec)|]; apply fold_dset_NoDup; exact HX.
  Qed.

  Definition found (done : list feat) (n : string) : option (list val) :=
    if mem_str n (flat_map drops done) then None
    else match dget String.eqb n (flat_map adds done) with Some c => Some c | None => dget String.eqb n m end.

  Lemma dget_app {V} (a b : list (string * V)) n : dget String.eqb n (a ++ b) = match dget String.eqb n a with Some c => Some c | None => dget String.eqb n b end.
  Proof. induction a as [|[k v] a IH]; cbn [app dget]; [reflexivity|]. destruct (String.eqb n k); [reflexivity | exact IH]. Qed.
  Lemma mem_str_app n a b : mem_str n (a ++ b) = (mem_str n a || mem_str n b)%bool.
  Proof. apply existsb_app. Qed.

  Hypothesis m_names : NoDup (map fst m).

  Lemma run_spec fs : forall done s0 s,
    NoDup (flat_map (fnames rels) (done ++ fs)) -> incl (flat_map (fnames rels) (done ++ fs)) (map fst m) ->
    NoDup (map fst (flat_map adds (done ++ fs))) -> (forall n, In n (map fst (flat_map adds (done ++ fs))) -> ~ In n (map fst m)) ->
    (forall f, In f (done ++ fs) -> ne f = false -> In (fn f) (fnames rels f)) ->
    (forall n, dget String.eqb n (e_X s0) = found done n) -> NoDup (map fst (e_X s0)) ->
    foldM one fs s0 = Ok s ->
    e_feats s = e_feats s0 ++ flat_map feats fs /\ e_cols s = e_cols s0 ++ flat_map (fnames rels) (flat_map feats fs) /\
    (forall n, dget String.eqb n (e_X s) = found (done ++ fs) n) /\ NoDup (map fst (e_X s)).
  Proof.
    induction fs as [|f fs IH]; intros done s0 s Hn Hi Ha Hd Hin HX HXn H; cbn [foldM] in H.
    - injection H as <-. rewrite ?app_nil_r in *. cbn [flat_map]. rewrite ?app_nil_r. auto.
    - apply bind_Ok in H as (s1 & H1 & H).
      assert (done ++ f :: fs = (done ++ [f]) ++ fs) as Eapp by (rewrite <- app_assoc; reflexivity).
      assert (In f (done ++ f :: fs)) as Hff by (apply in_or_app; right; left; reflexivity).
      assert (forall n, In n (map fst (adds f)) -> ~ In n (map fst m)) as Hdf.
      { intros n Hnn. apply Hd. rewrite flat_map_app, map_app. apply in_or_app; right. cbn [flat_map]. rewrite map_app. apply in_or_app; left; exact Hnn. }
      assert (forall d, In d done -> ne d = false -> ne f = false -> fn d <> fn f) as Hne.
      { intros d Hdd Ed Ef E. rewrite flat_map_app in Hn. apply NoDup_app_iff in Hn as (_ & _ & Hx). apply (Hx (fn d)).
        - apply in_flat_map. exists d. split; [exact Hdd|]. apply Hin; [apply in_or_app; left; exact Hdd | exact Ed].
        - rewrite E. cbn [flat_map]. apply in_or_app; left. apply Hin; [exact Hff | exact Ef]. }
      assert (ne f = false -> In (fn f) (map fst m)) as Hfm.
      { intros Ef. apply Hi. apply in_flat_map. exists f. split; [exact Hff | apply Hin; assumption]. }
      assert (NoDup (map fst (adds f))) as Haf.
      { rewrite flat_map_app, map_app in Ha. apply NoDup_app_iff in Ha as (_ & Ha & _). cbn [flat_map] in Ha. rewrite map_app in Ha. apply NoDup_app_iff in Ha. apply Ha. }
      assert (ne f = false -> dget String.eqb (fn f) (e_X s0) = dget String.eqb (fn f) m) as Hget.
      { intros Ef. rewrite HX. unfold found. assert (mem_str (fn f) (flat_map drops done) = false) as ->.
        { apply mem_str_nIn. intros Hx. apply in_flat_map in Hx as (d & Hdd & Hx). unfold drops in Hx. destruct (ne d) eqn:Ed; [destruct Hx|]. destruct Hx as [Hx|[]]. apply (Hne d Hdd Ed Ef Hx). }
        rewrite (proj2 (dget_None _ String.eqb_spec (fn f) (flat_map adds done))); [reflexivity|]. intros Hx. apply (Hd (fn f)); [|apply Hfm; exact Ef].
        rewrite flat_map_app, map_app. apply in_or_app; left; exact Hx. }
      assert (ne f = true -> s1 = mkEnc (e_X s0) (e_feats s0 ++ [f]) (e_cols s0 ++ fnames rels f)) as Hskip.
      { intros Ef. unfold one, encode_one in H1. fold ne in H1. rewrite Ef in H1. injection H1 as <-. reflexivity. }
      assert (e_feats s1 = e_feats s0 ++ feats f /\ e_cols s1 = e_cols s0 ++ flat_map (fnames rels) (feats f) /\
        (forall n, dget String.eqb n (e_X s1) = if mem_str n (drops f) then None else match dget String.eqb n (adds f) with Some c => Some c | None => dget String.eqb n (e_X s0) end) /\
        NoDup (map fst (e_X s1))) as (E1 & E2 & E3 & E4).
      { destruct (ne f) eqn:Ef.
        - rewrite (Hskip eq_refl). unfold feats, drops, adds. rewrite Ef. cbn [e_X e_feats e_cols flat_map dget mem_str existsb]. rewrite app_nil_r. auto.
        - destruct (one_step s0 f s1 (Hget eq_refl) Haf) as (A & B & C & D); [intros Hx; apply (Hdf _ Hx); apply Hfm; reflexivity | exact H1 | auto]. }
      destruct (IH (done ++ [f]) s1 s) as (F1 & F2 & F3 & F4); rewrite <- ?Eapp; auto.
      + intros n. rewrite E3, HX. unfold found. rewrite !flat_map_app. cbn [flat_map]. rewrite !app_nil_r, mem_str_app, dget_app.
        destruct (mem_str n (drops f)) eqn:Em; [rewrite orb_true_r; reflexivity|]. rewrite orb_false_r.
        destruct (dget String.eqb n (adds f)) as [c|] eqn:Eg.
        * apply (dget_In _ String.eqb_spec) in Eg. assert (In n (map fst (adds f))) as Hnn by (apply (in_map fst) in Eg; exact Eg).
          assert (mem_str n (flat_map drops done) = false) as ->.
          { apply mem_str_nIn. intros Hx. apply (Hdf n Hnn). apply in_flat_map in Hx as (d & Hdd & Hx). unfold drops in Hx. destruct (ne d) eqn:Ed; [destruct Hx|]. destruct Hx as [<-|[]].
            apply Hi. apply in_flat_map. exists d. split; [apply in_or_app; left; exact Hdd | apply Hin; [apply in_or_app; left; exact Hdd | exact Ed]]. }
          rewrite (proj2 (dget_None _ String.eqb_spec n (flat_map adds done))); [reflexivity|]. intros Hx.
          rewrite flat_map_app, map_app in Ha. apply NoDup_app_iff in Ha as (_ & _ & Hx2). apply (Hx2 n Hx). cbn [flat_map]. rewrite map_app. apply in_or_app; left; exact Hnn.
        * destruct (mem_str n (flat_map drops done)); [reflexivity|]. destruct (dget String.eqb n (flat_map adds done)); reflexivity.
      + rewrite F1, F2, E1, E2. cbn [flat_map]. rewrite flat_map_app, <- !app_assoc. rewrite <- Eapp in F3. auto.
  Qed.
End Run.
