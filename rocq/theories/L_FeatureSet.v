From Verif Require Import Base BaseFacts M_Schema S_Schema L_Schema M_Trie L_Trie M_Table M_Query S_View M_Feature M_FeatureSet S_Plan S_Calc.

(** ends of an edge in the direction of travel *)
Definition esrc (ed : edge) : string := if fst ed then r_ce (snd ed) else r_pe (snd ed).
Definition edst (ed : edge) : string := if fst ed then r_pe (snd ed) else r_ce (snd ed).

Section Typed.
  Variables (rels : list relationship) (P : string -> fnode -> Prop).

  Fixpoint typed (eid : string) (t : ftrie) {struct t} : Prop :=
    match t with
    | TNode v ch =>
      P eid v /\
      (fix all (l : list (edge * ftrie)) : Prop :=
         match l with
         | [] => True
         | (ed, s) :: l' => (In (snd ed) rels /\ esrc ed = eid /\ typed (edst ed) s) /\ all l'
         end) ch
    end.

  Lemma typed_unfold eid v ch : typed eid (TNode v ch) <->
    P eid v /\ Forall (fun es => In (snd (fst es)) rels /\ esrc (fst es) = eid /\ typed (edst (fst es)) (snd es)) ch.
  Proof.
    cbn [typed]. split; intros [H1 H2]; (split; [exact H1|]).
    - induction ch as [|[ed s] ch IH]; constructor; [exact (proj1 H2) | apply IH; exact (proj2 H2)].
    - induction H2 as [|[ed s] ch H H2 IH]; [exact I|]. split; [exact H | exact IH].
  Qed.
End Typed.

Lemma list_feat_ind (P : feat -> Prop) :
  (forall e v nm, P (FIdent e v nm)) ->
  (forall r b nm, P b -> P (FDirect r b nm)) ->
  (forall p bs path u wh prev nm, Forall P bs -> (forall w, wh = Some w -> P w) -> P (FAgg p bs path u wh prev nm)) ->
  (forall p bs nm, Forall P bs -> P (FTrans p bs nm)) ->
  (forall p bs g nm, Forall P bs -> P g -> P (FGroup p bs g nm)) ->
  (forall b n nm, P b -> P (FSlice b n nm)) ->
  forall f, P f.
Proof.
  intros H1 H2 H3 H4 H5 H6. fix IH 1. intros [e v nm|r b nm|p bs path u wh prev nm|p bs nm|p bs g nm|b n nm].
  - apply H1.
  - apply H2, IH.
  - apply H3.
    + induction bs as [|b bs IHb]; constructor; [apply IH | exact IHb].
    + intros w Hw. destruct wh as [w'|]; [|discriminate]. injection Hw as <-. apply IH.
  - apply H4. induction bs as [|b bs IHb]; constructor; [apply IH | exact IHb].
  - apply H5; [|apply IH]. induction bs as [|b bs IHb]; constructor; [apply IH | exact IHb].
  - apply H6, IH.
Qed.

Section UpdateExt.
  Context {K V : Type} (keqb : K -> K -> bool) (d : V).
  Lemma upd_child_ext k f g (ch : list (K * trie K V)) :
    (forall s, f s = g s) -> upd_child keqb d k f ch = upd_child keqb d k g ch.
  Proof.
    intros H. induction ch as [|[k' s] ch IH]; cbn [upd_child]; [rewrite H; reflexivity|].
    destruct (keqb k k'); [rewrite H; reflexivity | rewrite IH; reflexivity].
  Qed.
  Lemma update_at_ext p f g (t : trie K V) :
    (forall s, f s = g s) -> update_at keqb d p f t = update_at keqb d p g t.
  Proof.
    intros H. revert t. induction p as [|k p IH]; intros t; cbn [update_at]; [apply H|].
    destruct t as [v ch]. f_equal. apply upd_child_ext. exact IH.
  Qed.
End UpdateExt.

Lemma add_feature_unfold rels f t appr anc :
  add_feature rels f t appr anc =
  let '(node_full, ff, nf) := tvalue t in
  let needs_full := anc || uses_full f in
  let name := funique rels f in
  if mem_str name (tvalue appr) then t
  else
    let t1 :=
      if needs_full then
        mark_full (fpath f) (TNode (true, set_add name ff, set_remove name nf) (children t))
      else TNode (node_full, ff, if mem_str name ff then nf else set_add name nf) (children t) in
    update_at edge_eqb fnode0 (fpath f)
      (fun s => fold_left (fun s d => add_feature rels (unslice d) s (get_node edge_eqb [] (fpath f) appr) needs_full) (fdeps f) s) t1.
Proof.
  assert (forall bs sub nfull s,
    fold_left (fun s d => match d with
      | FSlice b _ _ => add_feature rels b s sub nfull
      | _ => add_feature rels d s sub nfull end) bs s =
    fold_left (fun s d => add_feature rels (unslice d) s sub nfull) bs s) as Hf.
  { intros bs sub nfull. induction bs as [|b bs IH]; intros s; cbn [fold_left]; [reflexivity|].
    rewrite <- IH. f_equal. destruct b; reflexivity. }
  destruct f as [e v nm|r b nm|p bs path u wh prev nm|p bs nm|p bs g nm|b n nm]; cbn [add_feature fdeps fbases fwhere app];
    destruct (tvalue t) as [[nfl ff] nf]; cbn zeta; destruct (mem_str _ (tvalue appr)); try reflexivity;
    apply update_at_ext; intros s; rewrite ?fold_left_app, ?app_nil_r, ?Hf; try reflexivity.
  - destruct b; reflexivity.
  - destruct wh as [w|]; [|reflexivity]. destruct w; reflexivity.
  - destruct g; reflexivity.
  - destruct b; reflexivity.
Qed.

Section TypedUpdate.
  Variables (rels : list relationship) (P : string -> fnode -> Prop).
  Hypothesis P0 : forall eid, P eid fnode0.
  Notation typed := (typed rels P).

  (** a list of edges leading from [a] to [b] *)
  Fixpoint epath (a : string) (p : list edge) (b : string) : Prop :=
    match p with
    | [] => a = b
    | ed :: p' => In (snd ed) rels /\ esrc ed = a /\ epath (edst ed) p' b
    end.

  Lemma typed_new eid : typed eid (trie_new fnode0).
  Proof. apply typed_unfold. split; [apply P0 | constructor]. Qed.

  Lemma upd_child_typed eid ed f ch :
    In (snd ed) rels -> esrc ed = eid ->
    (forall s, typed (edst ed) s -> typed (edst ed) (f s)) ->
    Forall (fun es => In (snd (fst es)) rels /\ esrc (fst es) = eid /\ typed (edst (fst es)) (snd es)) ch ->
    Forall (fun es => In (snd (fst es)) rels /\ esrc (fst es) = eid /\ typed (edst (fst es)) (snd es))
      (upd_child edge_eqb fnode0 ed f ch).
  Proof.
    intros Hin Hs Hf H. induction H as [|[ed' s] ch (H1 & H2 & H3) H IH]; cbn [upd_child fst snd] in *.
    - constructor; [|constructor]. cbn [fst snd]. split; [exact Hin|]. split; [exact Hs|]. apply Hf, typed_new.
    - destruct (edge_eqb_spec ed ed') as [<-|Hn].
      + constructor; [|exact H]. cbn [fst snd]. auto.
      + constructor; [cbn [fst snd]; auto | exact IH].
  Qed.

  Lemma update_at_typed p eid b f t :
    epath eid p b -> (forall s, typed b s -> typed b (f s)) -> typed eid t -> typed eid (update_at edge_eqb fnode0 p f t).
  Proof.
    revert eid t. induction p as [|ed p IH]; intros eid t Hp Hf Ht; cbn [epath update_at] in *; [subst b; auto|].
    destruct Hp as (Hin & Hs & Hp). destruct t as [v ch]. apply typed_unfold in Ht as [Hv Hch].
    apply typed_unfold. split; [exact Hv|]. apply upd_child_typed; auto.
  Qed.

  Hypothesis Pfull : forall eid b f1 f2, P eid (b, f1, f2) -> P eid (true, f1, f2).

  Lemma mark_full_typed p eid b t : epath eid p b -> typed eid t -> typed eid (mark_full p t).
  Proof.
    revert eid t. induction p as [|ed p IH]; intros eid t Hp Ht; cbn [epath mark_full] in *; [exact Ht|].
    destruct Hp as (Hin & Hs & Hp). destruct t as [v ch]. apply typed_unfold in Ht as [Hv Hch].
    apply typed_unfold. split; [exact Hv|]. apply upd_child_typed; auto.
    intros [[[b' f1] f2] ch'] Hs'. apply typed_unfold in Hs' as [Hv' Hch'].
    apply IH; [exact Hp|]. apply typed_unfold. split; [eapply Pfull; exact Hv' | exact Hch'].
  Qed.
End TypedUpdate.

Lemma chain_epath rels a p b : backward_chain rels a p b -> epath rels a (map (fun r => (false, r)) p) b.
Proof.
  revert a. induction p as [|r p IH]; intros a H; cbn [map epath].
  - apply chain_nil_inv in H. exact H.
  - apply chain_cons_inv in H as (Hin & Ha & H). cbn [snd]. unfold esrc, edst; cbn [fst snd]. auto.
Qed.

(** where the dependencies of a feature live *)
Lemma wt_path rels f : wt rels f -> ~ is_slice f ->
  exists b, epath rels (fentity f) (fpath f) b /\ forall d, In d (fdeps f) -> fentity d = b /\ wt rels d.
Proof.
  intros Hw Hs. destruct Hw as [e v nm|r b nm Hin Hb He|p bs path u wh prev nm ce Hne Hpne Hch Hb Hbe Hw Hwe|p bs nm e Hne Hb Hbe|p bs g nm Hne Hg Hgn Hb Hbe|b n nm Hb Hn H1];
    cbn [fentity fpath fdeps fbases fwhere app].
  - exists e. split; [reflexivity|]. intros d [].
  - exists (r_pe r). cbn [epath]. unfold esrc, edst. cbn [fst snd]. split; [auto|]. intros d [<-|[]]. auto.
  - exists ce. split.
    + destruct path as [|r path]; [congruence|]. apply (chain_epath rels _ (r :: path)). exact Hch.
    + intros d Hd. apply in_app_iff in Hd as [Hd|Hd]; [split; [apply Hbe|apply Hb]; exact Hd|].
      destruct wh as [w|]; [|destruct Hd]. destruct Hd as [<-|[]]. split; [apply Hwe; reflexivity | apply Hw; reflexivity].
  - exists e. split.
    + cbn [epath]. destruct bs as [|b bs]; [congruence|]. apply Hbe; left; reflexivity.
    + intros d Hd. rewrite app_nil_r in Hd. split; [apply Hbe|apply Hb]; exact Hd.
  - exists (fentity g). split.
    + cbn [epath]. destruct bs as [|b bs]; [congruence|]. apply Hbe; left; reflexivity.
    + intros d Hd. rewrite app_nil_r in Hd. apply in_app_iff in Hd as [Hd|[<-|[]]]; [split; [apply Hbe|apply Hb]; exact Hd | auto].
  - exfalso. apply Hs. exact I.
Qed.

Lemma wt_unslice rels d : wt rels d -> wt rels (unslice d) /\ ~ is_slice (unslice d) /\ fentity (unslice d) = fentity d.
Proof.
  intros H. destruct H; cbn [unslice fentity]; try (split; [econstructor; eassumption|]; split; [exact (fun H => H)|reflexivity]).
  split; [assumption|]. split; [|reflexivity]. intros Hs. destruct b; cbn [is_slice fnout] in *; try contradiction. lia.
Qed.

Lemma fsize_dep f d : In d (fdeps f) -> fsize d < fsize f.
Proof.
  assert (forall bs, In d bs -> fsize d <= list_sum (map fsize bs)) as Hs.
  { induction bs as [|b bs IH]; [intros []|]. cbn [map list_sum fold_right]. intros [<-|H]; [unfold list_sum; lia|]. specialize (IH H). unfold list_sum in *. lia. }
  destruct f as [e v nm|r b nm|p bs path u wh prev nm|p bs nm|p bs g nm|b n nm]; cbn [fdeps fbases fwhere app fsize].
  - intros [].
  - intros [<-|[]]; lia.
  - intros H. apply in_app_iff in H as [H|H]; [specialize (Hs _ H); lia|]. destruct wh as [w|]; [|destruct H].
    destruct H as [<-|[]]. lia.
  - rewrite app_nil_r. intros H. specialize (Hs _ H). lia.
  - rewrite app_nil_r. intros H. apply in_app_iff in H as [H|[<-|[]]]; [specialize (Hs _ H); lia | lia].
  - intros [<-|[]]; lia.
Qed.

Lemma fsize_unslice d : fsize (unslice d) <= fsize d.
Proof. destruct d; cbn [unslice fsize]; lia. Qed.

(** the names held at a node for entity [eid]: names of features of the set [Q] on that entity *)
Definition node_names (rels : list relationship) (Q : feat -> Prop) (eid : string) (v : fnode) : Prop :=
  let '(full, ff, nf) := v in
  (forall n, In n ff -> exists f, Q f /\ fentity f = eid /\ n = funique rels f) /\
  (forall n, In n nf -> exists f, Q f /\ fentity f = eid /\ n = funique rels f /\ uses_full f = false) /\
  (full = false -> ff = []).

Lemma set_add_In s x l : In x (set_add s l) <-> x = s \/ In x l.
Proof.
  unfold set_add. destruct (mem_str s l) eqn:E.
  - apply mem_str_In in E. split; [auto | intros [->|H]; auto].
  - rewrite in_app_iff. simpl. intuition.
Qed.
Lemma set_remove_In s x l : In x (set_remove s l) -> In x l /\ x <> s.
Proof. unfold set_remove. rewrite filter_In. intros [H1 H2]. split; [exact H1|]. intros ->. rewrite String.eqb_refl in H2. discriminate. Qed.

Section AddTyped.
  Variables (rels : list relationship) (Q : feat -> Prop).
  Hypothesis Qdep : forall f d, Q f -> In d (fdeps f) -> Q (unslice d).
  Hypothesis Qwt : forall f, Q f -> wt rels f /\ ~ is_slice f.
  Notation typed := (typed rels (node_names rels Q)).

  Lemma nn0 eid : node_names rels Q eid fnode0.
  Proof. split; [intros n []|]. split; [intros n []|reflexivity]. Qed.
  Lemma nn_full eid b f1 f2 : node_names rels Q eid (b, f1, f2) -> node_names rels Q eid (true, f1, f2).
  Proof. intros (H1 & H2 & H3). split; [exact H1|]. split; [exact H2|discriminate]. Qed.

  Lemma add_feature_typed n : forall f t appr anc, fsize f <= n -> Q f ->
    typed (fentity f) t -> typed (fentity f) (add_feature rels f t appr anc).
  Proof.
    induction n as [|n IH]; intros f t appr anc Hn Hq Ht; [destruct f; cbn [fsize] in Hn; lia|].
    rewrite add_feature_unfold. destruct t as [[[nfl ff] nf] ch]. cbn [tvalue children].
    apply typed_unfold in Ht as [Hv Hch]. cbn zeta.
    destruct (mem_str _ (tvalue appr)); [apply typed_unfold; auto|].
    destruct (Qwt f Hq) as [Hwt Hsl]. destruct (wt_path rels f Hwt Hsl) as (b & Hp & Hd).
    apply update_at_typed with (b := b); [apply nn0 | exact Hp | |].
    - assert (forall ds s, incl ds (fdeps f) -> typed b s ->
        typed b (fold_left (fun s d => add_feature rels (unslice d) s (get_node edge_eqb [] (fpath f) appr) (anc || uses_full f)) ds s)) as Hfold.
      { induction ds as [|d ds IHd]; intros s Hi Hs; cbn [fold_left]; [exact Hs|].
        apply IHd; [intros x Hx; apply Hi; right; exact Hx|].
        assert (In d (fdeps f)) as Hin by (apply Hi; left; reflexivity).
        destruct (Hd d Hin) as [Hde Hdw]. destruct (wt_unslice rels d Hdw) as (_ & _ & He).
        rewrite Hde in He. rewrite <- He in *. apply IH.
        - pose proof (fsize_dep f d Hin). pose proof (fsize_unslice d). lia.
        - eapply Qdep; eassumption.
        - exact Hs. }
      intros s Hs. apply Hfold; [apply incl_refl | exact Hs].
    - destruct Hv as (Hv1 & Hv2 & Hv3).
      destruct (anc || uses_full f) eqn:Ef.
      + apply mark_full_typed with (b := b); [apply nn0 | apply nn_full | exact Hp |].
        apply typed_unfold. split; [|exact Hch]. split; [|split; [|discriminate]].
        * intros m Hm. apply set_add_In in Hm as [->|Hm]; [exists f; auto | auto].
        * intros m Hm. apply set_remove_In in Hm as [Hm _]. auto.
      + apply typed_unfold. split; [|exact Hch]. split; [exact Hv1|]. split; [|exact Hv3].
        intros m Hm. destruct (mem_str _ ff); [auto|]. apply set_add_In in Hm as [->|Hm]; [|auto].
        exists f. apply orb_false_iff in Ef as [_ Ef]. auto.
  Qed.

  Lemma build_typed fs appr eid :
    (forall f, In f fs -> Q f /\ fentity f = eid) -> typed eid (build_feature_trie rels fs appr).
  Proof.
    unfold build_feature_trie. assert (typed eid (TNode fnode0 [])) as H0 by (apply (typed_new rels _ nn0)).
    revert H0. generalize (@TNode edge fnode fnode0 []). induction fs as [|f fs IH]; intros t Ht H; cbn [fold_left]; [exact Ht|].
    apply IH; [|intros g Hg; apply H; right; exact Hg].
    destruct (H f (or_introl eq_refl)) as [Hq <-]. eapply add_feature_typed; [apply le_n | exact Hq | exact Ht].
  Qed.
End AddTyped.
