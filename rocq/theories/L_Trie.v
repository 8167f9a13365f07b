(** Proofs about M_Trie. *)
From Verif Require Import Base BaseFacts M_Trie S_Trie.

Section TrieInd.
  Context {K V : Type} (P : trie K V -> Prop).
  Hypothesis HN : forall v ch, Forall (fun ks => P (snd ks)) ch -> P (TNode v ch).
  Fixpoint trie_ind2 (t : trie K V) : P t :=
    match t with
    | TNode v ch =>
      HN v ch ((fix go (l : list (K * trie K V)) : Forall (fun ks => P (snd ks)) l :=
        match l with
        | [] => Forall_nil _
        | (k, s) :: l' => Forall_cons (k, s) (trie_ind2 s) (go l')
        end) ch)
    end.
End TrieInd.

Section TrieFacts.
  Context {K V : Type} (keqb : K -> K -> bool) (keqb_spec : forall a b, reflect (a = b) (keqb a b)).
  Variable d : V.
  Local Notation trie := (trie K V).
  Local Notation get_node := (get_node keqb d).
  Local Notation update_at := (update_at keqb d).
  Local Notation upd_child := (upd_child keqb d).
  Local Notation dget := (dget (V:=trie) keqb).

  Lemma keqb_refl k : keqb k k = true.
  Proof. destruct (keqb_spec k k); congruence. Qed.

  Lemma keqb_neq k k' : k <> k' -> keqb k k' = false.
  Proof. destruct (keqb_spec k k'); congruence. Qed.

  Lemma dget_upd_same k f ch :
    dget k (upd_child k f ch) = Some (f (match dget k ch with Some s => s | None => trie_new d end)).
  Proof.
    induction ch as [|[k' s] ch IH]; simpl; [rewrite keqb_refl; reflexivity|].
    destruct (keqb k k') eqn:E; simpl; rewrite E; [reflexivity | exact IH].
  Qed.

  Lemma dget_upd_other k k' f ch : k' <> k -> dget k' (upd_child k f ch) = dget k' ch.
  Proof.
    intros Hn. induction ch as [|[k2 s] ch IH]; simpl; [rewrite (keqb_neq k' k Hn); reflexivity|].
    destruct (keqb_spec k k2) as [->|H2]; simpl.
    - rewrite (keqb_neq k' k2 Hn); reflexivity.
    - rewrite IH; reflexivity.
  Qed.

  Lemma get_node_app p q t : get_node (p ++ q) t = get_node q (get_node p t).
  Proof.
    revert t; induction p as [|k p IH]; intros t; simpl; [reflexivity|].
    destruct (dget k (children t)); apply IH.
  Qed.

  Lemma get_node_update_same p f t : get_node p (update_at p f t) = f (get_node p t).
  Proof.
    revert t; induction p as [|k p IH]; intros [v ch]; simpl; [reflexivity|].
    rewrite dget_upd_same. destruct (dget k ch); apply IH.
  Qed.

  (* the default node has only default nodes below it *)
  Lemma get_node_new p : get_node p (trie_new d) = trie_new d.
  Proof. induction p; simpl; auto. Qed.

  Definition keeps_children (f : trie -> trie) := forall s, children (f s) = children s.

  (* values elsewhere are unchanged by an update that keeps the children of the updated node *)
  Lemma tvalue_update_other p q f t :
    keeps_children f -> p <> q -> tvalue (get_node p (update_at q f t)) = tvalue (get_node p t).
  Proof.
    intros Hf. revert q t; induction p as [|k p IH]; intros [|k' q] t Hne; simpl.
    - congruence.
    - destruct t; reflexivity.
    - rewrite Hf; reflexivity.
    - destruct t as [v ch]; simpl.
      destruct (keqb_spec k k') as [->|Hkk].
      + rewrite dget_upd_same. destruct (dget k' ch); apply IH; congruence.
      + rewrite dget_upd_other by congruence. reflexivity.
  Qed.

  Lemma tvalue_set_same p v t : tvalue (get_node p (set_value keqb d p v t)) = v.
  Proof. unfold set_value. rewrite get_node_update_same; reflexivity. Qed.

  Lemma tvalue_set_other p q v t :
    p <> q -> tvalue (get_node p (set_value keqb d q v t)) = tvalue (get_node p t).
  Proof. intros H. apply tvalue_update_other; [intros [? ?]; reflexivity | exact H]. Qed.

  Lemma tvalue_touch p q t : tvalue (get_node p (touch keqb d q t)) = tvalue (get_node p t).
  Proof.
    unfold touch. revert q t; induction p as [|k p IH]; intros [|k' q] t; simpl; try reflexivity.
    - destruct t; reflexivity.
    - destruct t as [v ch]; simpl.
      destruct (keqb_spec k k') as [->|Hkk].
      + rewrite dget_upd_same. destruct (dget k' ch); apply IH.
      + rewrite dget_upd_other by congruence. reflexivity.
  Qed.

  (** existence of nodes *)
  Fixpoint has (p : list K) (t : trie) : Prop :=
    match p with
    | [] => True
    | k :: p' => match dget k (children t) with Some s => has p' s | None => False end
    end.

  Lemma has_new p : has p (trie_new d) <-> p = [].
  Proof. destruct p; simpl; intuition congruence. Qed.

  Lemma has_update p q f t :
    keeps_children f -> (has p (update_at q f t) <-> has p t \/ exists r, q = p ++ r).
  Proof.
    intros Hf. revert q t; induction p as [|k p IH]; intros q t; simpl.
    - split; [|tauto]. intros _. left; exact I.
    - destruct q as [|k' q]; simpl.
      + rewrite Hf. split; [tauto|]. intros [H|(r & Hr)]; [exact H | congruence].
      + destruct t as [v ch]; simpl.
        destruct (keqb_spec k k') as [->|Hkk].
        * rewrite dget_upd_same. destruct (dget k' ch) as [s|] eqn:E; rewrite IH.
          -- split; intros [H|(r & Hr)]; [left|right; exists r|left|right; exists r]; congruence || exact H.
          -- rewrite has_new. split.
             ++ intros [->|(r & Hr)]; right; [exists q; reflexivity | exists r; congruence].
             ++ intros [[]|(r & Hr)]. right; exists r; congruence.
        * rewrite dget_upd_other by congruence. split; [tauto|].
          intros [H|(r & Hr)]; [exact H | congruence].
  Qed.

  (** children dictionaries have distinct keys *)
  Fixpoint twf (t : trie) : Prop :=
    match t with TNode _ ch => NoDup (map fst ch) /\
      (fix all (l : list (K * trie)) : Prop := match l with [] => True | ks :: l' => twf (snd ks) /\ all l' end) ch
    end.

  Lemma twf_unfold v ch : twf (TNode v ch) <-> NoDup (map fst ch) /\ Forall (fun ks => twf (snd ks)) ch.
  Proof.
    simpl. split; intros [H1 H2]; split; auto; clear H1.
    - induction ch as [|ks ch IH]; constructor; [apply H2 | apply IH; apply H2].
    - induction H2; simpl; auto.
  Qed.

  Lemma twf_new : twf (trie_new d).
  Proof. apply twf_unfold; split; constructor. Qed.

  Lemma upd_child_keys k f ch :
    map fst (upd_child k f ch) = if existsb (keqb k) (map fst ch) then map fst ch else map fst ch ++ [k].
  Proof.
    induction ch as [|[k' s] ch IH]; simpl; [reflexivity|].
    destruct (keqb k k') eqn:E; simpl; [reflexivity|].
    rewrite IH; destruct (existsb _ _); reflexivity.
  Qed.

  Lemma upd_child_NoDup k f ch : NoDup (map fst ch) -> NoDup (map fst (upd_child k f ch)).
  Proof.
    intros H; rewrite upd_child_keys.
    destruct (existsb (keqb k) (map fst ch)) eqn:E; [exact H|].
    eapply Permutation_NoDup; [apply Permutation_cons_append|].
    constructor; [|exact H]. apply (existsb_eqb_nIn keqb keqb_spec); exact E.
  Qed.

  Lemma upd_child_Forall k f ch :
    Forall (fun ks => twf (snd ks)) ch -> (forall s, twf s -> twf (f s)) ->
    Forall (fun ks => twf (snd ks)) (upd_child k f ch).
  Proof.
    intros H Hf; induction H as [|[k' s] ch Hs Hch IH]; simpl.
    - constructor; [|constructor]. apply Hf, twf_new.
    - destruct (keqb k k'); constructor; simpl; auto.
  Qed.

  Lemma twf_update q f t : (forall s, twf s -> twf (f s)) -> twf t -> twf (update_at q f t).
  Proof.
    intros Hf. revert t; induction q as [|k q IH]; intros [v ch] H; [apply Hf; exact H|].
    cbn [M_Trie.update_at]. apply twf_unfold in H as [H1 H2]. apply twf_unfold; split.
    - apply upd_child_NoDup; exact H1.
    - apply upd_child_Forall; [exact H2 | exact IH].
  Qed.

  (** iteration *)
  Lemma iter_In (t : trie) : twf t -> forall p v,
    In (p, v) (iter t) <-> has p t /\ v = tvalue (get_node p t).
  Proof.
    induction t as [v0 ch IH] using trie_ind2. intros Hwf p v.
    apply twf_unfold in Hwf as [Hnd Hall].
    cbn [iter]. split.
    - intros [He|Hin].
      + injection He as <- <-. simpl; auto.
      + apply in_flat_map in Hin as ([k s] & Hks & Hin).
        apply in_map_iff in Hin as ([q w] & He & Hin). simpl in He, Hin.
        injection He as <- <-.
        rewrite Forall_forall in IH, Hall.
        apply (IH _ Hks (Hall _ Hks)) in Hin as [Hh Hv]. simpl in Hh, Hv.
        cbn [has get_node children]. rewrite (dget_NoDup_In keqb keqb_spec k s ch Hnd Hks). auto.
    - intros [Hh Hv]. destruct p as [|k p]; [left; simpl in Hv; congruence|]. right.
      cbn [has M_Trie.get_node children] in Hh, Hv. destruct (dget k ch) as [s|] eqn:E; [|contradiction].
      apply (dget_In keqb keqb_spec) in E. apply in_flat_map. exists (k, s); split; [exact E|].
      apply in_map_iff. exists (p, v); split; [reflexivity|]. simpl.
      rewrite Forall_forall in IH, Hall. apply (IH _ E (Hall _ E)); split; assumption.
  Qed.

  Lemma map_fst_cons_NoDup k (l : list (list K * V)) :
    NoDup (map fst l) -> NoDup (map fst (map (fun qv => (k :: fst qv, snd qv)) l)).
  Proof.
    intros H. rewrite map_map. simpl. rewrite <- (map_map fst (cons k)).
    apply FinFun.Injective_map_NoDup; [intros x y Hxy; congruence | exact H].
  Qed.

  Lemma NoDup_app_disj {A} (l1 l2 : list A) :
    NoDup l1 -> NoDup l2 -> (forall x, In x l1 -> In x l2 -> False) -> NoDup (l1 ++ l2).
  Proof.
    induction 1 as [|a l1 Hni Hnd IH]; intros H2 Hd; simpl; [exact H2|].
    constructor.
    - rewrite in_app_iff. intros [H|H]; [contradiction|]. apply (Hd a); [left; reflexivity | exact H].
    - apply IH; [exact H2|]. intros x H H'. apply (Hd x); [right; exact H | exact H'].
  Qed.

  Lemma iter_NoDup (t : trie) : twf t -> NoDup (map fst (iter t)).
  Proof.
    induction t as [v0 ch IH] using trie_ind2. intros Hwf.
    apply twf_unfold in Hwf as [Hnd Hall]. cbn [iter map fst]. constructor.
    - intros Hin. apply in_map_iff in Hin as ([p v] & Hp & Hin). simpl in Hp; subst p.
      apply in_flat_map in Hin as (ks & _ & Hin). apply in_map_iff in Hin as (qv & He & _). congruence.
    - induction ch as [|[k s] ch IHch]; [constructor|].
      inversion Hnd as [|? ? Hni Hnd']; subst. inversion Hall as [|? ? Hs Hall']; subst.
      inversion IH as [|? ? IHs IH']; subst.
      cbn [flat_map]. rewrite map_app. apply NoDup_app_disj.
      + apply map_fst_cons_NoDup. apply IHs; exact Hs.
      + apply IHch; assumption.
      + intros p H1 H2.
        apply in_map_iff in H1 as ([p1 v1] & Hp1 & H1). apply in_map_iff in H1 as (qv1 & He1 & _).
        apply in_map_iff in H2 as ([p2 v2] & Hp2 & H2). apply in_flat_map in H2 as ([k2 s2] & Hk2 & H2).
        apply in_map_iff in H2 as (qv2 & He2 & _). simpl in *.
        injection He1 as <- _. injection He2 as <- _. subst p.
        injection Hp2 as Hk _. subst k2. apply Hni. apply (in_map fst) in Hk2. exact Hk2.
  Qed.

  Lemma flat_map_split {A B} (f : A -> list B) l x l1 l2 :
    flat_map f l = l1 ++ x :: l2 ->
    exists la a lb y1 y2, l = la ++ a :: lb /\ f a = y1 ++ x :: y2 /\ l1 = flat_map f la ++ y1.
  Proof.
    revert l1; induction l as [|a l IH]; intros l1 H; simpl in H; [destruct l1; discriminate|].
    destruct (Nat.lt_ge_cases (List.length l1) (List.length (f a))) as [Hlt|Hge].
    - exists [], a, l. apply app_eq_app in H as (m & [[H1 H2]|[H1 H2]]).
      + destruct m as [|b m].
        * rewrite app_nil_r in H1. subst l1. lia.
        * simpl in H2. injection H2 as <- H2. exists l1, m. simpl; auto.
      + exfalso. rewrite H1, app_length in Hlt. lia.
    - apply app_eq_app in H as (m & [[H1 H2]|[H1 H2]]).
      + destruct m as [|b m].
        * rewrite app_nil_r in H1. simpl in H2. symmetry in H2.
          destruct (IH [] H2) as (la & a' & lb & y1 & y2 & Hl & Hf & Hl1).
          exists (a :: la), a', lb, y1, y2. subst l. split; [reflexivity|]. split; [exact Hf|].
          simpl. rewrite <- app_assoc, <- Hl1, app_nil_r. congruence.
        * exfalso. rewrite H1, app_length in Hge. simpl in Hge. lia.
      + destruct (IH m H2) as (la & a' & lb & y1 & y2 & Hl & Hf & Hl1).
        exists (a :: la), a', lb, y1, y2. subst l l1 m. simpl. rewrite app_assoc. auto.
  Qed.

  (* a node is visited after every proper ancestor *)
  Lemma iter_prefix_first (t : trie) : forall l1 l2 p r v,
    iter t = l1 ++ (p ++ r, v) :: l2 -> r <> [] -> In p (map fst l1).
  Proof.
    induction t as [v0 ch IH] using trie_ind2. intros l1 l2 p r v He Hr.
    cbn [iter] in He. destruct l1 as [|pv l1].
    - simpl in He. injection He as He _ _. symmetry in He. apply app_eq_nil in He as [_ ->]. congruence.
    - simpl in He. injection He as <- He. simpl.
      destruct p as [|k p]; [left; reflexivity|]. right.
      apply flat_map_split in He as (la & [k' s] & lb & y1 & y2 & Hch & Hf & ->).
      simpl in Hf. apply map_eq_app in Hf as (z1 & z2 & Hz & <- & Hz2).
      apply map_eq_cons in Hz2 as ([q w] & z3 & -> & Hq & _). simpl in Hq.
      injection Hq as <- -> ->. subst ch.
      rewrite Forall_forall in IH. specialize (IH (k', s)). simpl in IH.
      assert (In (k', s) (la ++ (k', s) :: lb)) as Hin by (apply in_app_iff; right; left; reflexivity).
      specialize (IH Hin z1 z3 p r v Hz Hr).
      rewrite map_app, in_app_iff. right. rewrite map_map. simpl.
      apply in_map_iff in IH as (qv & Hp & Hin'). apply in_map_iff. exists qv. split; [congruence | exact Hin'].
  Qed.

  (** histories *)
  Local Notation trie_run := (trie_run keqb d).
  Local Notation trie_step := (trie_step keqb d).

  Lemma trie_run_snoc ops o : trie_run (ops ++ [o]) = trie_step (trie_run ops) o.
  Proof. unfold M_Trie.trie_run. rewrite fold_left_app. reflexivity. Qed.

  Lemma trie_run_twf ops : twf (trie_run ops).
  Proof.
    induction ops as [|o ops IH] using rev_ind; [apply twf_new|].
    rewrite trie_run_snoc. destruct o as [p|p v]; simpl; apply twf_update; auto.
    intros [v' ch] H. apply twf_unfold in H. apply twf_unfold. exact H.
  Qed.

  Lemma trie_run_value path_eqb (path_eqb_spec : forall p q : list K, reflect (p = q) (path_eqb p q)) ops p :
    tvalue (get_node p (trie_run ops)) = last_write path_eqb d p (rev ops).
  Proof.
    induction ops as [|o ops IH] using rev_ind.
    - simpl. rewrite get_node_new. reflexivity.
    - rewrite trie_run_snoc, rev_app_distr. simpl. destruct o as [q|q v]; simpl.
      + rewrite tvalue_touch. exact IH.
      + destruct (path_eqb_spec p q) as [->|Hn].
        * apply tvalue_set_same.
        * rewrite tvalue_set_other by exact Hn. exact IH.
  Qed.

  Lemma trie_run_has ops p : has p (trie_run ops) <-> created ops p.
  Proof.
    unfold created. induction ops as [|o ops IH] using rev_ind.
    - rewrite (has_new p : has p (trie_run []) <-> _). split; [auto|]. intros [H|(o & r & [] & _)]; exact H.
    - rewrite trie_run_snoc.
      assert (has p (trie_step (trie_run ops) o) <-> has p (trie_run ops) \/ exists r, op_path o = p ++ r) as ->.
      { destruct o as [q|q v]; simpl; apply has_update; intros [? ?]; reflexivity. }
      rewrite IH. split.
      + intros [[->|(o' & r & Hin & He)]|(r & He)]; [auto| |].
        * right; exists o', r; rewrite in_app_iff; auto.
        * right; exists o, r; rewrite in_app_iff; simpl; auto.
      + intros [->|(o' & r & Hin & He)]; [auto|].
        apply in_app_iff in Hin as [Hin|[->|[]]]; [left; right; eauto | right; eauto].
  Qed.

  Lemma trie_run_iter path_eqb (path_eqb_spec : forall p q : list K, reflect (p = q) (path_eqb p q)) (ops : list (trie_op K V)) p v :
    In (p, v) (iter (trie_run ops)) <-> created ops p /\ v = last_write path_eqb d p (rev ops).
  Proof.
    rewrite (iter_In _ (trie_run_twf ops)), trie_run_has, (trie_run_value path_eqb path_eqb_spec). tauto.
  Qed.
End TrieFacts.
