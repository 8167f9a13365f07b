(** C86: progress reports. *)
From Coq Require Import QArith Lqa Lia.
From Verif Require Import Base BaseFacts M_Schema M_Feature M_Trie M_FeatureSet M_Report L_Schema L_Trie L_Group P_Select S_Plan P_Plan P_Value X_Demo.
Local Open Scope list_scope.
Local Open Scope Q_scope.

(** reports that go on from [p] percent: each update is the growth of the percentage, which never falls and never passes 100 *)
Fixpoint steady (p : Q) (rs : list (Q * Q)) : Prop :=
  match rs with
  | [] => True
  | (update, percent) :: rs => 0 <= update /\ percent == p + update /\ percent <= 100 /\ steady percent rs
  end.
Definition qtotal (l : list Q) : Q := fold_right Qplus 0 l.
(** a whole conversation with the callback: it is steady, it ends at 100, and the updates add up to 100 *)
Definition complete (rs : list (Q * Q)) : Prop :=
  steady 0 rs /\ qtotal (map fst rs) == 100 /\ exists before last, rs = before ++ [last] /\ snd last == 100 /\ forall r, In r before -> snd r <= 95.

Lemma qnat_pos n : (0 < n)%nat -> 0 < qnat n.
Proof. intros H. unfold qnat, Qlt. cbn. lia. Qed.
Lemma qnat_nonneg n : 0 <= qnat n.
Proof. unfold qnat, Qle. cbn. lia. Qed.
Lemma qnat_add a b : qnat (a + b) == qnat a + qnat b.
Proof. unfold qnat. rewrite Nat2Z.inj_add, inject_Z_plus. reflexivity. Qed.
Lemma qnat_le a b : (a <= b)%nat -> qnat a <= qnat b.
Proof. intros H. unfold qnat. rewrite <- Zle_Qle. lia. Qed.

Section Ticks.
  Variable len : nat.
  Hypothesis Hlen : (0 < len)%nat.
  Let total := bar_total len.
  Lemma total_pos : 0 < total.
  Proof. unfold total, bar_total. pose proof (qnat_pos len Hlen). apply Qlt_shift_div_l; lra. Qed.
  Let pct (n : Q) : Q := n / total * 100.
  Lemma pct_le a b : a <= b -> pct a <= pct b.
  Proof. intros H. unfold pct. apply Qmult_le_compat_r; [|lra]. unfold Qdiv. apply Qmult_le_compat_r; [exact H|]. apply Qlt_le_weak, Qinv_lt_0_compat, total_pos. Qed.
  Lemma pct_total : pct total == 100.
  Proof. unfold pct. pose proof total_pos. field. lra. Qed.
  Lemma pct_len : pct (qnat len) == 95.
  Proof. unfold pct, total, bar_total. pose proof (qnat_pos len Hlen). field. lra. Qed.
  Lemma pct_0 : pct 0 == 0.
  Proof. unfold pct, Qdiv. ring. Qed.
  Lemma len_total : qnat len <= total.
  Proof. unfold total, bar_total. pose proof (qnat_pos len Hlen). apply Qle_shift_div_l; lra. Qed.

  Lemma steady_ext p p' rs : p == p' -> steady p rs -> steady p' rs.
  Proof. destruct rs as [|[u q] rs]; [trivial|]. intros E (A & B & C & D). repeat split; try assumption. rewrite <- E. exact B. Qed.
  Lemma ticks_spec dones : forall n, (forall d, In d dones -> 0 <= d) -> n + qtotal dones <= qnat len ->
    fst (ticks total n dones) == n + qtotal dones /\ qtotal (map fst (snd (ticks total n dones))) == pct (fst (ticks total n dones)) - pct n /\
    (forall r, In r (snd (ticks total n dones)) -> snd r <= 95) /\
    forall rest, steady (pct (fst (ticks total n dones))) rest -> steady (pct n) (snd (ticks total n dones) ++ rest).
  Proof.
    induction dones as [|d ds IH]; intros n Hpos Hle.
    - cbn [ticks fst snd map qtotal fold_right]. split; [ring|]. split; [ring|]. split; [intros r []|]. intros rest H. exact H.
    - cbn [qtotal fold_right] in Hle. fold (qtotal ds) in Hle. assert (0 <= d) as Hd by (apply Hpos; left; reflexivity).
      destruct (IH (n + d) (fun x Hx => Hpos x (or_intror Hx))) as (A & B & C & D); [lra|].
      assert (0 <= qtotal ds) as Hds. { clear -Hpos. induction ds as [|x ds IHd]; [cbn; lra|]. cbn [qtotal fold_right]. fold (qtotal ds). pose proof (Hpos x (or_intror (or_introl eq_refl))). assert (0 <= qtotal ds) by (apply IHd; intros y [Hy|Hy]; apply Hpos; [left; exact Hy | right; right; exact Hy]). lra. }
      cbn [ticks tick]. cbv zeta. destruct (ticks total (n + d) ds) as [n2 rs] eqn:E. cbn [fst snd map qtotal fold_right app] in *. fold (qtotal (map fst rs)). fold (qtotal ds).
      assert (pct (n + d) <= 95) as H95 by (rewrite <- pct_len; apply pct_le; lra).
      split; [rewrite A; ring|]. split; [rewrite B; unfold pct, Qdiv; ring|]. split.
      + intros r [<-|Hr]; [exact H95 | apply C; exact Hr].
      + intros rest Hr. cbn [steady]. split; [|split; [|split]].
        * change (0 <= pct (n + d - n)). rewrite <- pct_0. apply pct_le. lra.
        * unfold pct, Qdiv. ring.
        * change (pct (n + d) <= 100). lra.
        * apply D. exact Hr.
  Qed.
  Lemma qtotal_app a b : qtotal (a ++ b) == qtotal a + qtotal b.
  Proof. induction a as [|x a IH]; [cbn [app]; change (qtotal []) with 0; ring|]. cbn [app qtotal fold_right]. fold (qtotal (a ++ b)). fold (qtotal a). rewrite IH. ring. Qed.
  Lemma all_ticks_complete dones : (forall d, In d dones -> 0 <= d) -> qtotal dones <= qnat len -> complete (all_ticks len dones).
  Proof.
    intros Hpos Hle. destruct (ticks_spec dones 0 Hpos) as (A & B & C & D); [lra|]. unfold all_ticks. fold total. destruct (ticks total 0 dones) as [n rs]. cbn [fst snd] in *. cbn [tick snd].
    pose proof len_total as Hlt. assert (n + (total - n) == total) as Et by ring. split; [|split].
    - apply (steady_ext (pct 0)); [apply pct_0|]. apply D. cbn [steady]. split; [|split; [|split; [|trivial]]].
      + change (0 <= pct (n + (total - n) - n)). rewrite <- pct_0. apply pct_le. lra.
      + unfold pct, Qdiv. ring.
      + change (pct (n + (total - n)) <= 100). rewrite <- pct_total. apply pct_le. lra.
    - rewrite map_app, qtotal_app, B, pct_0. cbn [map fst qtotal fold_right]. transitivity (pct total); [unfold pct, Qdiv; ring | apply pct_total].
    - exists rs. eexists. split; [reflexivity|]. cbn [snd]. split; [|exact C]. transitivity (pct total); [unfold pct, Qdiv; ring | apply pct_total].
  Qed.
End Ticks.

(** *** The calculator's reports *)
Section Calculator.
  Variable rels : list relationship.
  Variable by_name : list (string * feat).
  Variable ord : list string -> list string.
  Hypothesis Hord : forall l, Permutation (ord l) l.

  Lemma ones_sum {A} (l : list A) : list_sum (map (fun _ => 1%nat) l) = List.length l.
  Proof. induction l as [|a l IH]; [reflexivity|]. cbn. f_equal. exact IH. Qed.
  Lemma split_length {A} (p : A -> bool) l : (List.length (filter (fun x => negb (p x)) l) + List.length (filter p l) = List.length l)%nat.
  Proof. induction l as [|a l IH]; [reflexivity|]. cbn [filter]. destruct (p a); cbn [negb List.length] in *; lia. Qed.
  Lemma agg_sum st g ks : (let fl := filter (fun f => negb (g_has st f)) g in
      match fl with
      | [] => [0%nat]
      | _ => if g_empty st then map (fun _ => 1%nat) fl
             else let to_agg := filter (g_can_agg st) fl in let to_apply := filter (fun f => negb (g_can_agg st f)) fl in
               (match to_apply with [] => [] | _ => [List.length to_apply] end) ++ match to_agg with [] => [] | _ => [List.length to_agg] end
      end) = ks -> (list_sum ks <= List.length g)%nat /\ ((forall f, In f g -> g_has st f = false) -> list_sum ks = List.length g).
  Proof.
    cbv zeta. intros <-. set (fl := filter (fun f => negb (g_has st f)) g).
    match goal with |- (list_sum ?x <= _)%nat /\ _ => assert (list_sum x = List.length fl) as E end.
    { destruct fl as [|f0 fl0]; [reflexivity|]. destruct (g_empty st); [apply ones_sum|]. rewrite list_sum_app, <- (split_length (g_can_agg st) (f0 :: fl0)).
      f_equal; [destruct (filter (fun f => negb (g_can_agg st f)) (f0 :: fl0)) | destruct (filter (g_can_agg st) (f0 :: fl0))]; cbn; lia. }
    rewrite E. split.
    - pose proof (split_length (g_has st) g) as L. fold fl in L. lia.
    - intros Hn. unfold fl. clear -Hn. induction g as [|a g IH]; [reflexivity|]. cbn [filter]. rewrite (Hn a (or_introl eq_refl)). cbn. f_equal. apply IH. intros f Hf. apply Hn. right. exact Hf.
  Qed.
  Lemma group_sum st g ks : group_reports st g = Ok ks -> (list_sum ks <= List.length g)%nat /\ ((forall f, In f g -> g_has st f = false) -> list_sum ks = List.length g).
  Proof.
    unfold group_reports. destruct g as [|f g']; [discriminate|]. set (g := f :: g').
    assert (forall x : list nat, x = [List.length g] \/ x = map (fun _ => 1%nat) g -> (list_sum x <= List.length g)%nat /\ ((forall f, In f g -> g_has st f = false) -> list_sum x = List.length g)) as Q.
    { intros x [-> | ->]; [cbn [list_sum fold_right]; split; intros; lia | rewrite ones_sum; split; intros; lia]. }
    destruct f; intros H; [apply Q; left; congruence | apply Q; left; congruence | | apply Q; right; congruence | apply Q; destruct (g_empty st); [left | right]; congruence | discriminate].
    apply (agg_sum st g). injection H as H. exact H.
  Qed.
  Lemma group_features_sum names groups : group_features rels by_name names = Ok groups -> list_sum (map (@List.length feat) groups) = List.length names.
  Proof.
    unfold group_features. intros H. apply bind_Ok in H as (fs & Hf & H). apply bind_Ok in H as (depths & _ & H). injection H as <-. apply mapM_Ok_Forall2 in Hf. assert (List.length names = List.length fs) as -> by (clear -Hf; induction Hf; cbn; congruence).
    transitivity (List.length (List.concat (group_by_key (key_of rels depths) (isort (fun a b => key_leb (key_of rels depths a) (key_of rels depths b)) fs)))).
    - generalize (group_by_key (key_of rels depths) (isort (fun a b => key_leb (key_of rels depths a) (key_of rels depths b)) fs)). intros gs. induction gs as [|g gs IH]; [reflexivity|]. cbn [map list_sum fold_right List.concat]. rewrite app_length. f_equal. exact IH.
    - rewrite group_concat. apply Permutation_length. apply isort_perm || apply Permutation_sym, isort_perm.
  Qed.
  Lemma features_sum st names ks : feature_reports rels by_name ord st names = Ok ks ->
    (list_sum ks <= List.length names)%nat /\ ((forall g f, g_has (st g) f = false) -> list_sum ks = List.length names).
  Proof.
    unfold feature_reports. intros H. apply bind_Ok in H as (groups & Hg & H). apply bind_Ok in H as (rs & Hr & H). injection H as <-. apply group_features_sum in Hg. rewrite <- (Permutation_length (Hord names)), <- Hg. clear Hg.
    apply mapM_Ok_Forall2 in Hr. induction Hr as [|g ks gs rs Hk Hr IH]; [split; reflexivity|]. cbn [List.concat map list_sum fold_right]. rewrite list_sum_app. destruct (group_sum _ _ _ Hk) as [A B], IH as [C D]. unfold list_sum in *. split; [lia|].
    intros Hn. rewrite (B (fun f _ => Hn g f)), (D Hn). reflexivity.
  Qed.
  (** only nodes that need the whole entity have features for it *)
  Fixpoint flags_right (t : ftrie) : Prop :=
    match t with
    | TNode (full, ff, nf) ch => (full = false -> ff = []) /\ fold_right (fun es P => flags_right (snd es) /\ P) True ch
    end.
  Lemma node_sum st t : forall p ks, node_reports rels by_name ord st p t = Ok ks ->
    (list_sum ks <= num_features t)%nat /\ ((forall p b g f, g_has (st p b g) f = false) -> flags_right t -> list_sum ks = num_features t).
  Proof.
    induction t as [[[full ff] nf] ch IH] using trie_ind2. intros p ks H. cbn [node_reports] in H. apply bind_Ok in H as (subs & Hs & H). apply bind_Ok in H as (a & Ha & H). apply bind_Ok in H as (b & Hb & H). injection H as <-.
    assert ((list_sum subs <= list_sum (map (fun es => num_features (snd es)) ch))%nat /\ ((forall p b g f, g_has (st p b g) f = false) -> fold_right (fun es P => flags_right (snd es) /\ P) True ch -> list_sum subs = list_sum (map (fun es => num_features (snd es)) ch))) as [S1 S2].
    { clear -IH Hs. revert subs Hs. induction IH as [|[e s] ch Hh Ht IHc]; intros subs Hs; [injection Hs as <-; split; reflexivity|].
      apply bind_Ok in Hs as (x & Hx & Hs). apply bind_Ok in Hs as (y & Hy & Hs). injection Hs as <-. rewrite list_sum_app. destruct (Hh _ _ Hx) as [A B], (IHc _ Hy) as [C D]. cbn [map snd list_sum fold_right] in *. unfold list_sum in *. split; [lia|].
      intros Hn [F1 F2]. rewrite (B Hn F1), (D Hn F2). reflexivity. }
    assert ((list_sum a <= List.length ff)%nat /\ ((forall p b g f, g_has (st p b g) f = false) -> (full = false -> ff = []) -> list_sum a = List.length ff)) as [A1 A2].
    { destruct full; [destruct (features_sum _ _ _ Ha) as [A B]; split; [exact A | intros Hn _; apply B; intros; apply Hn]|]. injection Ha as <-. cbn. split; [lia|]. intros _ G. rewrite (G eq_refl). reflexivity. }
    destruct (features_sum _ _ _ Hb) as [B1 B2]. match goal with |- (list_sum ?x <= _)%nat /\ _ => assert (list_sum x = list_sum subs + (list_sum a + list_sum b))%nat as E end.
    { cbn [app]. transitivity (list_sum (subs ++ [0%nat] ++ a ++ b)); [reflexivity|]. rewrite !list_sum_app. reflexivity. }
    rewrite E. clear E. cbn [num_features flags_right]. split; [lia|].
    intros Hn [F1 F2]. rewrite (S2 Hn F2), (A2 Hn F1), (B2 (fun g f => Hn p false g f)). lia.
  Qed.

  Lemma run_dones t ks size : (0 < num_features t)%nat -> let dones := map (fun k => qnat k / qnat (num_features t) * qnat size) ks in
    (forall d, In d dones -> 0 <= d) /\ qtotal dones == qnat (list_sum ks) / qnat (num_features t) * qnat size.
  Proof.
    intros Hn dones. pose proof (qnat_pos _ Hn) as Hp. split.
    - intros d Hd. apply in_map_iff in Hd as (k & <- & _). apply Qmult_le_0_compat; [|apply qnat_nonneg]. apply Qle_shift_div_l; [exact Hp|]. pose proof (qnat_nonneg k). lra.
    - unfold dones. clear dones. induction ks as [|k ks IH]; [cbn [map qtotal fold_right list_sum]; unfold Qdiv; change (qnat 0) with 0; ring|].
      cbn [map qtotal fold_right list_sum]. fold (qtotal (map (fun k => qnat k / qnat (num_features t) * qnat size) ks)). fold (list_sum ks). rewrite IH, qnat_add. unfold Qdiv. ring.
  Qed.
  Lemma runs_total t len chunks runs : (0 < num_features t)%nat -> 
    mapM (fun c => do ks <- node_reports rels by_name ord (snd c) [] t; Ok (map (fun k => qnat k / qnat (num_features t) * qnat (fst c)) ks)) chunks = Ok runs ->
    (list_sum (map fst chunks) <= len)%nat -> (forall d, In d (List.concat runs) -> 0 <= d) /\ qtotal (List.concat runs) <= qnat (list_sum (map fst chunks)) /\
    ((forall c, In c chunks -> forall p b g f, g_has (snd c p b g) f = false) -> flags_right t -> qtotal (List.concat runs) == qnat (list_sum (map fst chunks))).
  Proof.
    intros Hn H _. apply mapM_Ok_Forall2 in H. pose proof (qnat_pos _ Hn) as Hp. induction H as [|c r cs rs Hc Hr IH]; [split; [intros d []|]; split; [apply Qle_refl | intros; reflexivity]|].
    apply bind_Ok in Hc as (ks & Hk & Hc). injection Hc as <-. destruct IH as (A & B & C). destruct (run_dones t ks (fst c) Hn) as [D E]. destruct (node_sum _ _ _ _ Hk) as [F G].
    cbn [List.concat map list_sum fold_right]. fold (list_sum (map fst cs)). split; [|split].
    - intros d Hd. apply in_app_iff in Hd as [Hd|Hd]; [apply D; exact Hd | apply A; exact Hd].
    - rewrite qtotal_app, E, qnat_add. assert (qnat (list_sum ks) / qnat (num_features t) * qnat (fst c) <= 1 * qnat (fst c)) as L.
      { apply Qmult_le_compat_r; [|apply qnat_nonneg]. apply Qle_shift_div_r; [exact Hp|]. apply qnat_le in F. lra. }
      lra.
    - intros Hh Hf. rewrite qtotal_app, E, qnat_add, (C (fun x Hx => Hh x (or_intror Hx)) Hf), (G (Hh c (or_introl eq_refl)) Hf). field. lra.
  Qed.

  (** *** One process: whatever the features, the data and the chunks, the reports are complete. *)
  Theorem C86_sequential t len chunks rs : (0 < len)%nat -> (0 < num_features t)%nat -> (list_sum (map fst chunks) <= len)%nat ->
    reports_seq rels by_name ord t len chunks = Ok rs -> complete rs.
  Proof.
    intros Hl Hn Hs H. unfold reports_seq in H. apply bind_Ok in H as (runs & Hr & H). injection H as <-. destruct (runs_total _ _ _ _ Hn Hr Hs) as (A & B & _).
    apply all_ticks_complete; [exact Hl | exact A|]. apply qnat_le in Hs. lra.
  Qed.
  Lemma flags_of t : twf t -> (forall p, let '(full, ff, _) := plan_at t p in full = false -> ff = []) -> flags_right t.
  Proof.
    induction t as [[[full ff] nf] ch IH] using trie_ind2. intros Hw H. apply twf_unfold in Hw as [Hnd Hw]. cbn [flags_right]. split; [exact (H [])|].
    assert (forall e s, In (e, s) ch -> dget edge_eqb e ch = Some s) as Hget by (intros e s; apply (dget_NoDup_In edge_eqb edge_eqb_spec); exact Hnd).
    assert (forall e s, In (e, s) ch -> flags_right s) as Hs.
    { intros e s Hin. rewrite Forall_forall in IH, Hw. apply (IH (e, s) Hin (Hw (e, s) Hin)). intros p. specialize (H (e :: p)). unfold plan_at in *. cbn [get_node children] in H. rewrite (Hget e s Hin) in H. exact H. }
    clear -Hs. induction ch as [|[e s] ch IHc]; [exact I|]. cbn [fold_right snd]. split; [apply (Hs e); left; reflexivity | apply IHc; intros e' s' Hin; apply (Hs e'); right; exact Hin].
  Qed.
  Lemma build_flags fs appr : flags_right (build_feature_trie rels fs appr).
  Proof.
    apply flags_of; [apply build_twf|]. intros p. pose proof (C15_plan_exact rels fs appr p) as H. destruct (plan_at (build_feature_trie rels fs appr) p) as [[full ff] nf]. cbv zeta in H. destruct H as (H1 & _ & H3 & _).
    intros ->. destruct ff as [|n ff]; [reflexivity|]. destruct (proj1 (H1 n) (or_introl eq_refl)) as (g & Hg & _). assert (false = true); [|discriminate]. apply H3. exists p, g, [], (fpath g). split; [exact Hg|]. split; [reflexivity | symmetry; apply app_nil_r].
  Qed.
  (** *** When nothing was precalculated, the calculation takes the bar to 95 percent, and what is left is 5. *)
  Theorem C86_share fs appr len chunks rs : let t := build_feature_trie rels fs appr in
    (0 < len)%nat -> (0 < num_features t)%nat -> list_sum (map fst chunks) = len ->
    (forall c, In c chunks -> forall p b g f, g_has (snd c p b g) f = false) ->
    reports_seq rels by_name ord t len chunks = Ok rs -> exists before update percent, rs = before ++ [(update, percent)] /\ update == 5 /\ qtotal (map fst before) == 95.
  Proof.
    intros t Hl Hn Hs Hh H. pose proof (build_flags fs appr : flags_right t) as Hf. unfold reports_seq in H. apply bind_Ok in H as (runs & Hr & H). injection H as <-. destruct (runs_total _ len _ _ Hn Hr) as (A & _ & B); [lia|]. specialize (B Hh Hf). rewrite Hs in B.
    destruct (ticks_spec len Hl (List.concat runs) 0 A) as (C & D & _ & _); [lra|]. unfold all_ticks. destruct (ticks (bar_total len) 0 (List.concat runs)) as [n before]. cbn [fst snd] in *. cbn [tick snd].
    pose proof (pct_len len Hl) as P1. pose proof (pct_total len Hl) as P2. pose proof (total_pos len Hl) as P3. cbv beta zeta in *. assert (n == qnat len) as En by (rewrite C, B; ring).
    exists before. eexists _, _. split; [reflexivity|]. split.
    - transitivity (bar_total len / bar_total len * 100 - qnat len / bar_total len * 100); [rewrite En; unfold Qdiv; ring|]. rewrite P1, P2. reflexivity.
    - rewrite D, En, P1. unfold Qdiv. ring.
  Qed.
End Calculator.

(** *** Many processes: in whatever order the chunks arrive, the reports are complete. *)
Theorem C86_parallel len arrived sizes : (0 < len)%nat -> Permutation arrived sizes -> (list_sum sizes <= len)%nat -> complete (reports_par len arrived).
Proof.
  intros Hl Hp Hs. apply all_ticks_complete; [exact Hl | intros d Hd; apply in_map_iff in Hd as (k & <- & _); apply qnat_nonneg|].
  assert (list_sum arrived = list_sum sizes) as E by (clear -Hp; induction Hp; cbn [list_sum fold_right] in *; unfold list_sum in *; lia).
  assert (qtotal (map qnat arrived) == qnat (list_sum arrived)) as E2. { clear. induction arrived as [|k l IH]; [reflexivity|]. cbn [map qtotal fold_right list_sum]. fold (qtotal (map qnat l)). fold (list_sum l). rewrite IH, qnat_add. reflexivity. }
  rewrite E2, E. apply qnat_le. exact Hs.
Qed.
(** *** The features of the demonstration, four rows in two chunks, the second without data. *)
Definition demo_states : list (nat * (list edge -> bool -> list feat -> gstate)) :=
  [(3%nat, fun _ _ _ => mkState false (fun _ => false) (fun _ => true)); (1%nat, fun _ _ _ => mkState true (fun _ => false) (fun _ => true))].
Example C86_nonvacuous : (0 < num_features (build_feature_trie demo_rels demo_fs no_appr))%nat /\ list_sum (map fst demo_states) = 4%nat /\ exists rs, reports_seq demo_rels (features_by_name demo_rels demo_fs) (fun l => l) (build_feature_trie demo_rels demo_fs no_appr) 4%nat demo_states = Ok rs /\ (10 < List.length rs)%nat.
Proof. split; [vm_compute; lia|]. split; [reflexivity|]. eexists. split; [vm_compute; reflexivity | cbn; lia]. Qed.
Print Assumptions C86_sequential.
Print Assumptions C86_share.
Print Assumptions C86_parallel.
