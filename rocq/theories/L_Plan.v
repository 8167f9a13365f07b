From Verif Require Import Base BaseFacts M_Schema S_Schema L_Schema M_Trie L_Trie M_Table M_Query S_View M_Feature M_FeatureSet S_Plan S_Calc L_FeatureSet.

Notation gn := (get_node edge_eqb fnode0).
Definition V (t : ftrie) (p : list edge) : fnode := tvalue (gn p t).
Definition nfull (v : fnode) : bool := fst (fst v).
Definition nff (v : fnode) : list string := snd (fst v).
Definition nnf (v : fnode) : list string := snd v.

Definition node_ok (v : fnode) : Prop :=
  NoDup (nff v) /\ NoDup (nnf v) /\ (forall n, In n (nff v) -> ~ In n (nnf v)).

(** [v'] is [v] with full features [F], features [N] and the flag raised when [L] *)
Definition grows (v v' : fnode) (F N : string -> Prop) (L : Prop) : Prop :=
  (forall n, In n (nff v') <-> In n (nff v) \/ F n) /\
  (forall n, In n (nff v') \/ In n (nnf v') <-> (In n (nff v) \/ In n (nnf v)) \/ N n) /\
  (nfull v' = true <-> nfull v = true \/ L) /\
  (node_ok v -> node_ok v').

Lemma grows_refl v (F N : string -> Prop) (L : Prop) : (forall n, ~ F n) -> (forall n, ~ N n) -> ~ L -> grows v v F N L.
Proof. intros H1 H2 H3. split; [|split; [|split]]; try tauto; intros n; specialize (H1 n); specialize (H2 n); tauto. Qed.

Lemma grows_trans v v' v'' F N L F' N' L' :
  grows v v' F N L -> grows v' v'' F' N' L' -> grows v v'' (fun n => F n \/ F' n) (fun n => N n \/ N' n) (L \/ L').
Proof.
  intros (A1 & A2 & A3 & A4) (B1 & B2 & B3 & B4). split; [|split; [|split]].
  - intros n. rewrite B1, A1. tauto.
  - intros n. rewrite B2, A2. tauto.
  - rewrite B3, A3. tauto.
  - tauto.
Qed.

Lemma grows_iff v v' (F N F' N' : string -> Prop) (L L' : Prop) :
  (forall n, F n <-> F' n) -> (forall n, N n <-> N' n) -> (L <-> L') -> grows v v' F N L -> grows v v' F' N' L'.
Proof.
  intros H1 H2 H3 (A1 & A2 & A3 & A4). split; [|split; [|split]].
  - intros n. rewrite A1, H1. tauto.
  - intros n. rewrite A2, H2. tauto.
  - rewrite A3, H3. tauto.
  - exact A4.
Qed.

(** ** reading a trie after an update below a path *)
Lemma V_update_ext q f t p : V (update_at edge_eqb fnode0 q f t) (q ++ p) = V (f (gn q t)) p.
Proof. unfold V. rewrite get_node_app, (get_node_update_same edge_eqb edge_eqb_spec). reflexivity. Qed.

Lemma V_update_other q : forall p f t, (forall r, p <> q ++ r) -> V (update_at edge_eqb fnode0 q f t) p = V t p.
Proof.
  induction q as [|k q IH]; intros p f t H; [exfalso; apply (H p); reflexivity|].
  unfold V. destruct t as [v ch]. cbn [update_at]. destruct p as [|k' p]; [reflexivity|]. cbn [get_node children].
  destruct (edge_eqb_spec k' k) as [->|Hk].
  - rewrite (dget_upd_same edge_eqb edge_eqb_spec). cbn [option_map].
    assert (forall r, p <> q ++ r) as H' by (intros r ->; apply (H r); reflexivity).
    destruct (dget edge_eqb k ch) as [s|]; apply (IH p f _ H').
  - rewrite (dget_upd_other edge_eqb edge_eqb_spec) by exact Hk. reflexivity.
Qed.

Lemma prefix_dec (q p : list edge) : (exists r, p = q ++ r) \/ (forall r, p <> q ++ r).
Proof.
  revert p. induction q as [|k q IH]; intros p; [left; exists p; reflexivity|].
  destruct p as [|k' p]; [right; intros r; discriminate|].
  destruct (edge_eqb_spec k k') as [<-|Hk].
  - destruct (IH p) as [(r & ->)|H]; [left; exists r; reflexivity | right; intros r [= Hr]; exact (H r Hr)].
  - right. intros r [= Hr _]. congruence.
Qed.

Lemma V_shift t q p : V (gn q t) p = V t (q ++ p).
Proof. unfold V. rewrite get_node_app. reflexivity. Qed.

(** ** mark_full *)
Lemma mark_full_V q : forall t p,
  grows (V t p) (V (mark_full q t) p) (fun _ => False) (fun _ => False)
    (exists q1 r, q = q1 ++ r /\ q1 <> [] /\ p = q1).
Proof.
  induction q as [|k q IH]; intros t p.
  - apply grows_refl; auto. intros (q1 & r & Hq & Hn & _). symmetry in Hq. apply app_eq_nil in Hq as [-> _]. congruence.
  - destruct t as [v ch]. cbn [mark_full]. unfold V. destruct p as [|k' p].
    + cbn [get_node tvalue]. apply grows_refl; auto. intros (q1 & r & _ & Hn & E). congruence.
    + cbn [get_node children]. destruct (edge_eqb_spec k' k) as [->|Hk].
      * rewrite (dget_upd_same edge_eqb edge_eqb_spec).
        set (s := match dget edge_eqb k ch with Some s => s | None => trie_new fnode0 end).
        assert (match dget edge_eqb k ch with Some s => gn p s | None => gn p (trie_new fnode0) end = gn p s) as -> by (unfold s; destruct (dget edge_eqb k ch); reflexivity).
        clearbody s. destruct s as [[[b f1] f2] ch'].
        specialize (IH (TNode (true, f1, f2) ch') p). unfold V in IH.
        assert (grows (tvalue (gn p (TNode (b, f1, f2) ch'))) (tvalue (gn p (TNode (true, f1, f2) ch')))
                  (fun _ => False) (fun _ => False) (p = [])) as H1.
        { destruct p as [|k2 p]; cbn [get_node tvalue children].
          - split; [|split; [|split]]; cbn [nff nnf nfull fst snd]; try tauto.
          - apply grows_refl; auto. discriminate. }
        eapply grows_iff; [| | |exact (grows_trans _ _ _ _ _ _ _ _ _ H1 IH)]; try (intros; tauto).
        split.
        -- intros [->|(q1 & r & -> & Hn & ->)]; [exists [k], q|exists (k :: q1), r]; repeat split; discriminate.
        -- intros (q1 & r & Hq & Hn & <-). injection Hq as Hq. destruct p as [|k2 p]; [left; reflexivity|].
           right. exists (k2 :: p), r. repeat split; [exact Hq | discriminate].
      * rewrite (dget_upd_other edge_eqb edge_eqb_spec) by exact Hk. apply grows_refl; auto.
        intros (q1 & r & Hq & Hn & <-). injection Hq as Hq _. congruence.
Qed.

Section Occ.
  Variable rels : list relationship.
  Notation funique := (funique rels).

  (** occurrences below one feature *)
  Inductive occ : feat -> bool -> (list edge -> string -> Prop) -> list edge -> bool -> feat -> Prop :=
  | occ_here f anc (ap : list edge -> string -> Prop) : ~ ap [] (funique f) -> occ f anc ap [] (anc || uses_full f) f
  | occ_dep f anc (ap : list edge -> string -> Prop) d p b g : ~ ap [] (funique f) -> In d (fdeps f) ->
      occ (unslice d) (anc || uses_full f) (fun q n => ap (fpath f ++ q) n) p b g -> occ f anc ap (fpath f ++ p) b g.

  Definition apx (appr : atrie) (p : list edge) (n : string) : Prop := In n (tvalue (get_node edge_eqb [] p appr)).

  Lemma occ_ext f anc ap p b g : occ f anc ap p b g -> forall ap', (forall q n, ap q n <-> ap' q n) -> occ f anc ap' p b g.
  Proof.
    induction 1 as [f anc ap Hn|f anc ap d p b g Hn Hd Ho IH]; intros ap' He.
    - apply occ_here. rewrite <- He. exact Hn.
    - eapply occ_dep; [rewrite <- He; exact Hn | exact Hd |]. apply IH. intros q n. apply He.
  Qed.

  Lemma occ_not f anc ap p b g : occ f anc ap p b g -> ~ ap [] (funique f).
  Proof. intros H. inversion H; assumption. Qed.

  Definition LF (f : feat) (anc : bool) (ap : list edge -> string -> Prop) (p : list edge) : Prop := exists p0 g q r, occ f anc ap p0 true g /\ fpath g = q ++ r /\ p = p0 ++ q.

  Definition contrib (f : feat) (anc : bool) (appr : atrie) (p : list edge) (v v' : fnode) : Prop :=
    grows v v' (fun n => exists g, occ f anc (apx appr) p true g /\ n = funique g)
               (fun n => exists b g, occ f anc (apx appr) p b g /\ n = funique g)
               (LF f anc (apx appr) p).

  Lemma node_here name (anc_full : bool) (v : fnode) :
    let '(fl, ff, nf) := v in
    grows v (if anc_full then (true, set_add name ff, set_remove name nf)
             else (fl, ff, if mem_str name ff then nf else set_add name nf))
      (fun n => anc_full = true /\ n = name) (fun n => n = name) (anc_full = true).
  Proof.
    destruct v as [[fl ff] nf]. destruct anc_full.
    - split; [|split; [|split]]; cbn [nff nnf nfull fst snd].
      + intros n. rewrite set_add_In. tauto.
      + intros n. rewrite set_add_In. split.
        * intros [[->|H]|H]; auto. apply set_remove_In in H as [H _]. auto.
        * intros [[H|H]| ->]; auto. destruct (String.eqb_spec name n) as [->|Hn]; [auto|].
          right. unfold set_remove. apply filter_In. split; [exact H|]. apply negb_true_iff, String.eqb_neq. exact Hn.
      + tauto.
      + intros (H1 & H2 & H3). split; [|split]; cbn [nff nnf fst snd] in *.
        * unfold set_add. destruct (mem_str name ff) eqn:E; [exact H1|]. apply mem_str_nIn in E.
          eapply Permutation_NoDup; [apply Permutation_cons_append|]. constructor; assumption.
        * apply NoDup_filter; exact H2.
        * intros n Hn Hn'. apply set_remove_In in Hn' as [Hn' Hne]. apply set_add_In in Hn as [->|Hn]; [congruence|]. exact (H3 n Hn Hn').
    - split; [|split; [|split]]; cbn [nff nnf nfull fst snd].
      + intros n. split; [auto | intros [H|[H _]]; [exact H | discriminate]].
      + intros n. destruct (mem_str name ff) eqn:E.
        * apply mem_str_In in E. split; [auto|]. intros [H| ->]; auto.
        * rewrite set_add_In. tauto.
      + split; [auto | intros [H|H]; [exact H | discriminate]].
      + intros (H1 & H2 & H3). destruct (mem_str name ff) eqn:E; [exact (conj H1 (conj H2 H3))|]. apply mem_str_nIn in E.
        split; [|split]; cbn [nff nnf fst snd] in *; [exact H1| |].
        * unfold set_add. destruct (mem_str name nf) eqn:E2; [exact H2|]. apply mem_str_nIn in E2.
          eapply Permutation_NoDup; [apply Permutation_cons_append|]. constructor; assumption.
        * intros n Hn Hn'. apply set_add_In in Hn' as [->|Hn']; [contradiction | exact (H3 n Hn Hn')].
  Qed.

  Lemma add_feature_V k : forall f t appr anc p, fsize f <= k ->
    contrib f anc appr p (V t p) (V (add_feature rels f t appr anc) p).
  Proof.
    induction k as [|k IH]; intros f t appr anc p Hk; [destruct f; cbn [fsize] in Hk; lia|].
    rewrite add_feature_unfold. destruct t as [[[fl ff] nf] ch]. cbn [tvalue children]. cbn zeta.
    destruct (mem_str (funique f) (tvalue appr)) eqn:Eap.
    - apply mem_str_In in Eap. apply grows_refl.
      + intros n (g & Ho & _). exact (occ_not _ _ _ _ _ _ Ho Eap).
      + intros n (b & g & Ho & _). exact (occ_not _ _ _ _ _ _ Ho Eap).
      + intros (p0 & g & q & r & Ho & _). exact (occ_not _ _ _ _ _ _ Ho Eap).
    - apply mem_str_nIn in Eap.
      set (nfu := anc || uses_full f). set (nm := funique f).
      set (t0 := TNode (fl, ff, nf) ch).
      set (ta := TNode (if nfu then (true, set_add nm ff, set_remove nm nf) else (fl, ff, if mem_str nm ff then nf else set_add nm nf)) ch : ftrie).
      set (t1 := if nfu then mark_full (fpath f) (TNode (true, set_add nm ff, set_remove nm nf) ch)
                 else TNode (fl, ff, if mem_str nm ff then nf else set_add nm nf) ch).
      set (sub := get_node edge_eqb [] (fpath f) appr).
      (* the node itself *)
      assert (forall p, grows (V t0 p) (V ta p) (fun n => p = [] /\ nfu = true /\ n = nm) (fun n => p = [] /\ n = nm) (p = [] /\ nfu = true)) as Ha.
      { intros [|k0 p0]; unfold V, t0, ta; cbn [get_node tvalue children].
        - pose proof (node_here nm nfu (fl, ff, nf)) as H. cbn beta iota in H.
          eapply grows_iff; [| | |exact H]; try (intros n; tauto). tauto.
        - apply grows_refl; [intros n [H _]; discriminate | intros n [H _]; discriminate | intros [H _]; discriminate]. }
      (* the nodes on the path *)
      assert (forall p, grows (V ta p) (V t1 p) (fun _ => False) (fun _ => False)
                (nfu = true /\ exists q1 r, fpath f = q1 ++ r /\ q1 <> [] /\ p = q1)) as Hb.
      { intros p1. unfold t1, ta. destruct nfu.
        - eapply grows_iff; [| | |apply mark_full_V]; try (intros; tauto).
        - apply grows_refl; auto. intros [H _]; discriminate. }
      (* the dependencies *)
      assert (forall ds s p1, incl ds (fdeps f) ->
        grows (V s p1) (V (fold_left (fun s d => add_feature rels (unslice d) s sub nfu) ds s) p1)
          (fun n => exists d g, In d ds /\ occ (unslice d) nfu (apx sub) p1 true g /\ n = funique g)
          (fun n => exists d b g, In d ds /\ occ (unslice d) nfu (apx sub) p1 b g /\ n = funique g)
          (exists d, In d ds /\ LF (unslice d) nfu (apx sub) p1)) as Hc.
      { induction ds as [|d ds IHd]; intros s p1 Hi; cbn [fold_left].
        - apply grows_refl; [intros n (d & _ & [] & _) | intros n (d & _ & _ & [] & _) | intros (d & [] & _)].
        - assert (fsize (unslice d) <= k) as Hs.
          { pose proof (fsize_dep f d (Hi d (or_introl eq_refl))). pose proof (fsize_unslice d). lia. }
          pose proof (IH (unslice d) s sub nfu p1 Hs) as H1.
          pose proof (IHd (add_feature rels (unslice d) s sub nfu) p1 (fun x Hx => Hi x (or_intror Hx))) as H2.
          eapply grows_iff; [| | |exact (grows_trans _ _ _ _ _ _ _ _ _ H1 H2)].
          + intros n. split.
            * intros [(g & Ho & Hn)|(d' & g & Hd & H)]; [exists d, g; simpl; auto | exists d', g; simpl; tauto].
            * intros (d' & g & [<-|Hd] & Ho & Hn); [left; eauto | right; eauto].
          + intros n. split.
            * intros [(b & g & Ho & Hn)|(d' & b & g & Hd & H)]; [exists d, b, g; simpl; auto | exists d', b, g; simpl; tauto].
            * intros (d' & b & g & [<-|Hd] & Ho & Hn); [left; eauto | right; exists d', b, g; auto].
          + split.
            * intros [H|(d' & Hd & H)]; [exists d; simpl; auto | exists d'; simpl; auto].
            * intros (d' & [<-|Hd] & H); [left; exact H | right; eauto]. }
      assert (forall q n, apx sub q n <-> apx appr (fpath f ++ q) n) as Hsub.
      { intros q n. unfold apx, sub. rewrite get_node_app. tauto. }
      assert (grows (V t1 p)
               (V (update_at edge_eqb fnode0 (fpath f)
                     (fun s => fold_left (fun s d => add_feature rels (unslice d) s sub nfu) (fdeps f) s) t1) p)
          (fun n => exists d p1 g, p = fpath f ++ p1 /\ In d (fdeps f) /\ occ (unslice d) nfu (apx sub) p1 true g /\ n = funique g)
          (fun n => exists d p1 b g, p = fpath f ++ p1 /\ In d (fdeps f) /\ occ (unslice d) nfu (apx sub) p1 b g /\ n = funique g)
          (exists d p1, p = fpath f ++ p1 /\ In d (fdeps f) /\ LF (unslice d) nfu (apx sub) p1)) as Hd.
      { destruct (prefix_dec (fpath f) p) as [(p1 & ->)|Hnp].
        - rewrite V_update_ext. rewrite <- V_shift.
          eapply grows_iff; [| | |apply Hc; apply incl_refl].
          + intros n. split; [intros (d & g & H1 & H2 & H3); exists d, p1, g; auto|].
            intros (d & p2 & g & E & H). apply app_inv_head in E as <-. eauto.
          + intros n. split; [intros (d & b & g & H1 & H2 & H3); exists d, p1, b, g; auto|].
            intros (d & p2 & b & g & E & H). apply app_inv_head in E as <-. exists d, b, g; exact H.
          + split; [intros (d & H1 & H2); exists d, p1; auto|]. intros (d & p2 & E & H). apply app_inv_head in E as <-. eauto.
        - rewrite V_update_other by exact Hnp. apply grows_refl.
          + intros n (d & p1 & g & E & _). exact (Hnp p1 E).
          + intros n (d & p1 & b & g & E & _). exact (Hnp p1 E).
          + intros (d & p1 & E & _). exact (Hnp p1 E). }
      pose proof (grows_trans _ _ _ _ _ _ _ _ _ (grows_trans _ _ _ _ _ _ _ _ _ (Ha p) (Hb p)) Hd) as H.
      eapply grows_iff; [| | |exact H]; clear H Ha Hb Hc Hd.
      + intros n. split.
        * intros [[(-> & Hf & ->)|[]]|(d & p1 & g & -> & Hd & Ho & Hn)].
          -- exists f. split; [|reflexivity]. pose proof (occ_here f anc (apx appr) Eap) as Hoc. fold nfu in Hoc. rewrite Hf in Hoc. exact Hoc.
          -- exists g. split; [|exact Hn]. eapply occ_dep; [exact Eap | exact Hd |]. eapply occ_ext; [exact Ho|]. exact Hsub.
        * intros (g & Ho & Hn). inversion Ho as [f' anc' ap' Hap E1 E2 E3 E4 E5|f' anc' ap' d p1 b g' Hap Hd Ho' E1 E2 E3 E4 E5 E6]; subst.
          -- left; left. fold nfu. auto.
          -- right. exists d, p1, g. split; [reflexivity|]. split; [exact Hd|]. split; [|reflexivity].
             eapply occ_ext; [exact Ho'|]. intros q m. symmetry. apply Hsub.
      + intros n. split.
        * intros [[[-> ->]|[]]|(d & p1 & b & g & -> & Hd & Ho & Hn)].
          -- exists nfu, f. split; [|reflexivity]. exact (occ_here f anc (apx appr) Eap).
          -- exists b, g. split; [|exact Hn]. eapply occ_dep; [exact Eap | exact Hd |]. eapply occ_ext; [exact Ho|]. exact Hsub.
        * intros (b & g & Ho & Hn). inversion Ho as [f' anc' ap' Hap E1 E2 E3 E4 E5|f' anc' ap' d p1 b' g' Hap Hd Ho' E1 E2 E3 E4 E5 E6]; subst.
          -- left; left. auto.
          -- right. exists d, p1, b, g. split; [reflexivity|]. split; [exact Hd|]. split; [|reflexivity].
             eapply occ_ext; [exact Ho'|]. intros q m. symmetry. apply Hsub.
      + split.
        * intros [[[-> Hf]|[Hf (q1 & r & Hq & Hn & ->)]]|(d & p1 & -> & Hd & (p0 & g & q & r & Ho & Hq & ->))].
          -- exists [], f, [], (fpath f). split; [|auto]. pose proof (occ_here f anc (apx appr) Eap) as Hoc. fold nfu in Hoc. rewrite Hf in Hoc. exact Hoc.
          -- exists [], f, q1, r. split; [|auto]. pose proof (occ_here f anc (apx appr) Eap) as Hoc. fold nfu in Hoc. rewrite Hf in Hoc. exact Hoc.
          -- exists (fpath f ++ p0), g, q, r. split; [|split; [exact Hq | apply app_assoc]].
             eapply occ_dep; [exact Eap | exact Hd |]. eapply occ_ext; [exact Ho|]. exact Hsub.
        * intros (p0 & g & q & r & Ho & Hq & ->). inversion Ho as [f' anc' ap' Hap E1 E2 E3 E4 E5|f' anc' ap' d p1 b' g' Hap Hd Ho' E1 E2 E3 E4 E5 E6]; subst.
          -- left. destruct q as [|k0 q]; [left; split; reflexivity | right]. split; [reflexivity|]. exists (k0 :: q), r. split; [exact Hq|]. split; [discriminate | reflexivity].
          -- right. exists d, (p1 ++ q). split; [symmetry; apply app_assoc|]. split; [exact Hd|].
             exists p1, g, q, r. split; [|auto]. eapply occ_ext; [exact Ho'|]. intros q' m. symmetry. apply Hsub.
  Qed.

  (** the whole plan *)
  Lemma occ_planned fs ap f0 anc (ap0 : list edge -> string -> Prop) p b g :
    occ f0 anc ap0 p b g ->
    forall base, (forall q n, ap0 q n <-> ap (base ++ q) n) ->
    planned rels ap fs base (anc || uses_full f0) f0 -> planned rels ap fs (base ++ p) b g.
  Proof.
    induction 1 as [f anc ap0 Hn|f anc ap0 d p b g Hn Hd Ho IH]; intros base He Hp.
    - rewrite app_nil_r. exact Hp.
    - rewrite app_assoc.
      apply IH.
      + intros q n. rewrite He, app_assoc. tauto.
      + apply planned_dep; [exact Hp | exact Hd|].
        assert (~ ap0 (fpath f ++ []) (funique (unslice d))) as H1.
        { exact (occ_not _ _ _ _ _ _ Ho). }
        intros Hx. apply H1. rewrite app_nil_r in *. apply He. exact Hx.
  Qed.

  Lemma occ_snoc f anc ap p b g d :
    occ f anc ap p b g -> In d (fdeps g) -> ~ ap (p ++ fpath g) (funique (unslice d)) ->
    occ f anc ap (p ++ fpath g) (b || uses_full (unslice d)) (unslice d).
  Proof.
    induction 1 as [f anc ap Hn|f anc ap d0 p b g Hn Hd0 Ho IH]; intros Hd Hap.
    - cbn [app] in *. rewrite <- (app_nil_r (fpath f)). eapply occ_dep; [exact Hn | exact Hd |].
      apply occ_here. rewrite app_nil_r. exact Hap.
    - rewrite <- app_assoc in *. eapply occ_dep; [exact Hn | exact Hd0 |]. apply IH; assumption.
  Qed.

  Lemma planned_occ fs ap p b g : planned rels ap fs p b g <-> exists f, In f fs /\ occ f false ap p b g.
  Proof.
    split.
    - induction 1 as [f Hf Hn|p b f d Hp IH Hd Hn].
      + exists f. split; [exact Hf|]. exact (occ_here f false ap Hn).
      + destruct IH as (f0 & Hf0 & Ho). exists f0. split; [exact Hf0|]. apply occ_snoc; assumption.
    - intros (f & Hf & Ho). pose proof (occ_planned fs ap f false ap p b g Ho []) as H. cbn [app] in H.
      apply H; [tauto|]. apply planned_target; [exact Hf | exact (occ_not _ _ _ _ _ _ Ho)].
  Qed.

  Lemma build_V fs appr p :
    grows fnode0 (V (build_feature_trie rels fs appr) p)
      (fun n => exists g, planned rels (apx appr) fs p true g /\ n = funique g)
      (fun n => exists b g, planned rels (apx appr) fs p b g /\ n = funique g)
      (full_needed rels (apx appr) fs p).
  Proof.
    assert (forall fs t,
      grows (V t p) (V (fold_left (fun t f => add_feature rels f t appr false) fs t) p)
        (fun n => exists f g, In f fs /\ occ f false (apx appr) p true g /\ n = funique g)
        (fun n => exists f b g, In f fs /\ occ f false (apx appr) p b g /\ n = funique g)
        (exists f, In f fs /\ LF f false (apx appr) p)) as H.
    { clear fs. induction fs as [|f fs IH]; intros t; cbn [fold_left].
      - apply grows_refl; [intros n (d & _ & [] & _) | intros n (d & _ & _ & [] & _) | intros (d & [] & _)].
      - pose proof (add_feature_V (fsize f) f t appr false p (le_n _)) as H1.
        pose proof (IH (add_feature rels f t appr false)) as H2.
        eapply grows_iff; [| | |exact (grows_trans _ _ _ _ _ _ _ _ _ H1 H2)].
        + intros n. split.
          * intros [(g & Ho & Hn)|(d' & g & Hd & H)]; [exists f, g; simpl; auto | exists d', g; simpl; tauto].
          * intros (d' & g & [<-|Hd] & Ho & Hn); [left; eauto | right; eauto].
        + intros n. split.
          * intros [(b & g & Ho & Hn)|(d' & b & g & Hd & H)]; [exists f, b, g; simpl; auto | exists d', b, g; simpl; tauto].
          * intros (d' & b & g & [<-|Hd] & Ho & Hn); [left; eauto | right; exists d', b, g; auto].
        + split.
          * intros [H|(d' & Hd & H)]; [exists f; simpl; auto | exists d'; simpl; auto].
          * intros (d' & [<-|Hd] & H); [left; exact H | right; eauto]. }
    specialize (H fs (TNode fnode0 [])).
    assert (V (TNode fnode0 []) p = fnode0) as E by (unfold V; change (TNode fnode0 []) with (@trie_new edge fnode fnode0); rewrite get_node_new; reflexivity).
    rewrite E in H. eapply grows_iff; [| | |exact H].
    - intros n. split.
      + intros (f & g & Hf & Ho & Hn). exists g. split; [apply planned_occ; eauto | exact Hn].
      + intros (g & Hp & Hn). apply planned_occ in Hp as (f & Hf & Ho). exists f, g. auto.
    - intros n. split.
      + intros (f & b & g & Hf & Ho & Hn). exists b, g. split; [apply planned_occ; eauto | exact Hn].
      + intros (b & g & Hp & Hn). apply planned_occ in Hp as (f & Hf & Ho). exists f, b, g. auto.
    - split.
      + intros (f & Hf & p0 & g & q & r & Ho & Hq & Hp). exists p0, g, q, r. split; [apply planned_occ; eauto | auto].
      + intros (p0 & g & q & r & Hpl & Hq & Hp). apply planned_occ in Hpl as (f & Hf & Ho). exists f. split; [exact Hf|]. exists p0, g, q, r; auto.
  Qed.

  Lemma plan_exact fs appr p :
    let '(full, ff, nf) := V (build_feature_trie rels fs appr) p in
    (forall n, In n ff <-> exists g, planned rels (apx appr) fs p true g /\ n = funique g) /\
    (forall n, In n nf <-> (exists g, planned rels (apx appr) fs p false g /\ n = funique g) /\
                           ~ exists g, planned rels (apx appr) fs p true g /\ n = funique g) /\
    (full = true <-> full_needed rels (apx appr) fs p) /\ NoDup ff /\ NoDup nf.
  Proof.
    pose proof (build_V fs appr p) as (H1 & H2 & H3 & H4).
    destruct (V _ p) as [[full ff] nf]. cbn [nff nnf nfull fst snd fnode0] in *.
    destruct H4 as (N1 & N2 & N3); [split; [apply NoDup_nil|split; [apply NoDup_nil|intros n []]]|]. cbn [nff nnf nfull fst snd] in *.
    split; [|split; [|split; [|split; assumption]]].
    - intros n. rewrite H1. simpl. tauto.
    - intros n. split.
      + intros Hn. assert (~ In n ff) as Hnf by (intros Hf; exact (N3 n Hf Hn)).
        assert (~ exists g, planned rels (apx appr) fs p true g /\ n = funique g) as Hng by (intros Hg; apply Hnf, H1; auto).
        split; [|exact Hng]. destruct (proj1 (H2 n) (or_intror Hn)) as [[[]|[]]|([|] & g & Hg)]; [|eauto].
        exfalso. apply Hng. eauto.
      + intros [(g & Hg) Hng]. destruct (proj2 (H2 n)) as [H|H]; [right; exists false, g; exact Hg | | exact H].
        exfalso. apply Hng. apply H1 in H as [[]|H]. exact H.
    - rewrite H3. split; [intros [H|H]; [discriminate | exact H] | auto].
  Qed.
End Occ.
