(** C24: dependencies and depth are structural. *)
From Verif Require Import Base BaseFacts M_Schema M_Trie M_FeatureSet M_Feature L_FeatureSet S_Calc S_Depth.
From Verif Require X_Demo.
Local Open Scope string_scope.
Local Open Scope list_scope.

Lemma deep_deps_unfold rels ign f : deep_deps rels ign f =
  filter (fun d => negb (mem_str (funique rels d) ign)) (fdeps f) ++ flat_map (fun d => if mem_str (funique rels d) ign then [] else deep_deps rels ign d) (fdeps f).
Proof.
  destruct f as [e v nm|r b nm|p bs path u wh prev nm|p bs nm|p bs g nm|b n nm]; cbn [deep_deps fdeps fbases fwhere app]; rewrite ?flat_map_app; cbn [flat_map]; rewrite ?app_nil_r; try reflexivity.
  destruct wh as [w|]; cbn [flat_map]; rewrite ?app_nil_r; reflexivity.
Qed.

Lemma fsize_dep f d : In d (fdeps f) -> fsize d < fsize f.
Proof.
  assert (forall bs d, In d bs -> fsize d <= list_sum (map fsize bs)) as Hs.
  { induction bs as [|b bs IH]; intros x Hx; [contradiction|]. cbn [map]. change (list_sum (fsize b :: map fsize bs)) with (fsize b + list_sum (map fsize bs)). destruct Hx as [->|Hx]; [lia|]. apply IH in Hx. lia. }
  destruct f as [e v nm|r b nm|p bs path u wh prev nm|p bs nm|p bs g nm|b n nm]; unfold fdeps; cbn [fbases fwhere fsize]; rewrite ?app_nil_r; intros H.
  - destruct H.
  - destruct H as [->|[]]. lia.
  - apply in_app_or in H as [H|H]; [apply Hs in H; lia|]. destruct wh as [w|]; [|destruct H]. destruct H as [->|[]]. lia.
  - apply Hs in H. lia.
  - apply in_app_or in H as [H|H]; [apply Hs in H; lia|]. destruct H as [->|[]]. lia.
  - destruct H as [->|[]]. lia.
Qed.

Lemma by_size (P : feat -> Prop) : (forall f, (forall d, fsize d < fsize f -> P d) -> P f) -> forall f, P f.
Proof. intros H f. remember (fsize f) as n eqn:En. revert f En. induction n as [n IH] using lt_wf_ind. intros f ->. apply H. intros d Hd. eapply IH; [exact Hd | reflexivity]. Qed.

(** *** The deep dependencies of a feature are exactly what is below it *)
Theorem C24_dependencies rels ign f g : In g (deep_deps rels ign f) <-> below rels ign f g.
Proof.
  revert g. induction f as [f IH] using by_size. intros g. rewrite deep_deps_unfold, in_app_iff, filter_In, in_flat_map. split.
  - intros [[H1 H2]|(d & Hd & H)].
    + apply below_one; [exact H1|]. apply mem_str_nIn. apply negb_true_iff. exact H2.
    + destruct (mem_str (funique rels d) ign) eqn:E; [destruct H|]. apply mem_str_nIn in E. apply (below_more rels ign f d g Hd E). apply IH; [apply fsize_dep; exact Hd | exact H].
  - intros H. inversion H as [? d Hd Hn|? d ? Hd Hn Hb]; subst; [left; split; [exact Hd | apply negb_true_iff; apply mem_str_nIn; exact Hn]|].
    right. exists d. split; [exact Hd|]. apply mem_str_nIn in Hn. rewrite Hn. apply IH; [apply fsize_dep; exact Hd | exact Hb].
Qed.
Lemma below_deps rels ign f g : below rels ign f g -> fsize g < fsize f.
Proof. induction 1 as [f d H Hn|f d g H Hn Hb IH]; [apply fsize_dep; exact H|]. apply fsize_dep in H. lia. Qed.
(** nothing is below itself: definitions are finite *)
Theorem C24_acyclic rels ign f : ~ In f (deep_deps rels ign f).
Proof. intros H. apply C24_dependencies, below_deps in H. lia. Qed.

Lemma fold_max_spec l : forall a, fold_left Nat.max l a = Nat.max a (list_max l).
Proof. induction l as [|x l IH]; intros a; cbn [fold_left]; [cbn; lia|]. rewrite IH. change (list_max (x :: l)) with (Nat.max x (list_max l)). lia. Qed.
Lemma list_max_In l x : In x l -> x <= list_max l.
Proof. intros H. pose proof (proj1 (list_max_le l (list_max l)) (Nat.le_refl _)) as F. rewrite Forall_forall in F. apply F. exact H. Qed.
Lemma list_max_le_all l n : (forall x, In x l -> x <= n) -> list_max l <= n.
Proof. intros H. apply list_max_le. apply Forall_forall. exact H. Qed.
Lemma list_max_reached l : l <> [] -> In (list_max l) l.
Proof.
  induction l as [|x l IH]; intros H; [contradiction|]. change (list_max (x :: l)) with (Nat.max x (list_max l)). destruct l as [|y l]; [left; cbn; lia|].
  destruct (Nat.max_spec x (list_max (y :: l))) as [[_ ->]|[_ ->]]; [right; apply IH; discriminate | left; reflexivity].
Qed.

Section Depth.
  Variable rels : list relationship.
  Variable stop : option (list string).
  Let ign : list string := match stop with Some s => s | None => [] end.

  Definition botb (f : feat) : bool := match f with FIdent _ _ _ => true | _ => mem_str (funique rels f) ign end.
  Lemma botb_spec f : botb f = true <-> bottom rels ign f.
  Proof.
    unfold bottom. split.
    - intros H. destruct f; [left; do 3 eexists; reflexivity | | | | |]; right; apply mem_str_In; exact H.
    - intros [(e & v & nm & ->)|H]; [reflexivity|]. apply mem_str_In in H. destruct f; cbn [botb]; auto.
  Qed.

  (** the depth, whatever the fuel beyond the size of the definition *)
  Definition depth_is (f : feat) (n : nat) : Prop := forall fuel, fsize f <= fuel -> depth_fuel rels fuel stop f = Ok n.
  Lemma depth_is_get f n : depth_is f n -> forall k, depth_fuel rels (fsize f) stop f = Ok k -> k = n.
  Proof. intros H k Hk. rewrite (H (fsize f) (Nat.le_refl _)) in Hk. congruence. Qed.
  Lemma fsize_pos f : 0 < fsize f.
  Proof. destruct f; cbn; lia. Qed.

  Lemma depth_exists f : exists n, depth_is f n /\ (botb f = true -> n = 0) /\
    (botb f = false -> exists ks, n = S (list_max ks) /\ Forall2 depth_is (deep_deps rels ign f) ks).
  Proof.
    induction f as [f IH] using by_size. destruct (botb f) eqn:B.
    - exists 0. split; [|split; [reflexivity | discriminate]]. intros fuel Hf. pose proof (fsize_pos f). destruct fuel as [|fuel]; [lia|].
      destruct f; cbn [depth_fuel]; [reflexivity | | | | |]; cbn [botb] in B; unfold ign in B; rewrite B; reflexivity.
    - assert (forall l, (forall d, In d l -> fsize d < fsize f) -> exists ks, Forall2 depth_is l ks /\ forall fuel, fsize f <= S fuel -> mapM (depth_fuel rels fuel stop) l = Ok ks) as Hm.
      { induction l as [|d l IHl]; intros Hl; [exists []; split; [constructor | reflexivity]|]. pose proof (Hl d (or_introl eq_refl)) as Hlt. destruct (IH d Hlt) as (k & Hk & _). destruct IHl as (ks & HF & Hks); [intros x Hx; apply Hl; right; exact Hx|].
        exists (k :: ks). split; [constructor; assumption|]. intros fuel Hf. cbn [mapM]. rewrite Hk by lia. rewrite Hks by exact Hf. reflexivity. }
      destruct (Hm (deep_deps rels ign f)) as (ks & HF & Hks).
      { intros d H. apply C24_dependencies, below_deps in H. exact H. }
      exists (S (list_max ks)). split; [|split; [discriminate | intros _; exists ks; auto]]. intros fuel Hf. pose proof (fsize_pos f). destruct fuel as [|fuel]; [lia|].
      destruct f; [discriminate B| | | | |]; cbn [depth_fuel]; cbn [botb] in B; fold ign; rewrite B; rewrite Hks by exact Hf; cbn [bind]; rewrite fold_max_spec; reflexivity.
  Qed.
  Lemma depth_is_fun f n k : depth_is f n -> depth_is f k -> n = k.
  Proof. intros H1 H2. pose proof (H1 (fsize f) (Nat.le_refl _)) as A. rewrite (H2 _ (Nat.le_refl _)) in A. congruence. Qed.
  Lemma Forall2_In_l {A B} (R : A -> B -> Prop) l l' x : Forall2 R l l' -> In x l -> exists y, In y l' /\ R x y.
  Proof. induction 1 as [|a b l l' H HF IH]; intros Hx; [contradiction|]. destruct Hx as [<-|Hx]; [exists b; split; [left; reflexivity | exact H]|]. destruct (IH Hx) as (y & Hy & Hr). exists y. split; [right; exact Hy | exact Hr]. Qed.
  Lemma Forall2_In_r {A B} (R : A -> B -> Prop) l l' y : Forall2 R l l' -> In y l' -> exists x, In x l /\ R x y.
  Proof. induction 1 as [|a b l l' H HF IH]; intros Hx; [contradiction|]. destruct Hx as [<-|Hx]; [exists a; split; [left; reflexivity | exact H]|]. destruct (IH Hx) as (y' & Hy & Hr). exists y'. split; [right; exact Hy | exact Hr]. Qed.

  Lemma below_depth f g n k : botb f = false -> below rels ign f g -> depth_is f n -> depth_is g k -> k < n.
  Proof.
    intros B Hb Hn Hk. destruct (depth_exists f) as (n' & Hn' & _ & H). pose proof (depth_is_fun _ _ _ Hn Hn') as <-. destruct (H B) as (ks & -> & HF). apply C24_dependencies in Hb.
    destruct (Forall2_In_l _ _ _ _ HF Hb) as (k' & Hin & Hk'). pose proof (depth_is_fun _ _ _ Hk Hk') as <-. apply list_max_In in Hin. lia.
  Qed.

  Lemma depth_direct f n : depth_is f n -> botb f = false ->
    exists m, n = S m /\ (forall d k, In d (fdeps f) -> depth_is d k -> k <= m) /\ (fdeps f <> [] -> exists d, In d (fdeps f) /\ depth_is d m).
  Proof.
    intros Hn B. destruct (depth_exists f) as (n' & Hn' & _ & H). pose proof (depth_is_fun _ _ _ Hn Hn') as <-. destruct (H B) as (ks & -> & HF). exists (list_max ks). split; [reflexivity|].
    assert (forall d k, In d (fdeps f) -> mem_str (funique rels d) ign = true -> depth_is d k -> k = 0) as Hi.
    { intros d k _ Hm Hk. destruct (depth_exists d) as (k' & Hk' & H0 & _). rewrite (depth_is_fun _ _ _ Hk Hk'). apply H0. destruct d; cbn [botb]; auto. }
    split.
    - intros d k Hd Hk. destruct (mem_str (funique rels d) ign) eqn:E; [rewrite (Hi d k Hd E Hk); lia|]. apply mem_str_nIn in E.
      pose proof (below_depth f d _ k B (below_one rels ign f d Hd E) Hn Hk). lia.
    - intros Hne. destruct ks as [|k0 ks0].
      + destruct (fdeps f) as [|d l] eqn:Ed; [contradiction|]. exists d. split; [left; reflexivity|]. destruct (depth_exists d) as (k & Hk & _).
        destruct (mem_str (funique rels d) ign) eqn:E; [rewrite (Hi d k (or_introl eq_refl) E Hk) in Hk; exact Hk|]. exfalso. apply mem_str_nIn in E. assert (In d (deep_deps rels ign f)) as Hin by (apply C24_dependencies; apply below_one; [rewrite Ed; left; reflexivity | exact E]).
        inversion HF as [Hx|]. rewrite <- Hx in Hin. destruct Hin.
      + assert (In (list_max (k0 :: ks0)) (k0 :: ks0)) as Hmax by (apply list_max_reached; discriminate). destruct (Forall2_In_r _ _ _ _ HF Hmax) as (g & Hg & Hgd). apply C24_dependencies in Hg.
        inversion Hg as [? d Hd Hni|? d ? Hd Hni Hb]; subst; [exists g; auto|]. exfalso. destruct (depth_exists d) as (k & Hk & _).
        assert (botb d = false) as Bd. { destruct d; [exfalso; apply C24_dependencies in Hb; destruct Hb | | | | |]; cbn [botb]; apply mem_str_nIn; exact Hni. }
        pose proof (below_depth d g k _ Bd Hb Hk Hgd). pose proof (below_depth f d _ k B (below_one rels ign f d Hd Hni) Hn Hk). lia.
  Qed.
End Depth.

(** *** Depth: 0 for identity features and those the caller stops at, otherwise one more than the deepest dependency *)
Theorem C24_depth rels stop f : let ign := match stop with Some s => s | None => [] end in
  exists n, get_depth rels stop f = Ok n /\ (bottom rels ign f -> n = 0) /\
    (~ bottom rels ign f -> exists m, n = S m /\ (forall d k, In d (fdeps f) -> get_depth rels stop d = Ok k -> k <= m) /\
       (fdeps f <> [] -> exists d, In d (fdeps f) /\ get_depth rels stop d = Ok m)).
Proof.
  intros ign. destruct (depth_exists rels stop f) as (n & Hn & H0 & _). exists n. split; [apply Hn; lia|]. split; [intros Hb; apply H0; apply botb_spec; exact Hb|].
  intros Hb. assert (botb rels stop f = false) as B by (destruct (botb rels stop f) eqn:B; [exfalso; apply Hb; apply botb_spec; exact B | reflexivity]).
  destruct (depth_direct rels stop f n Hn B) as (m & -> & H1 & H2). exists m. split; [reflexivity|]. split.
  - intros d k Hd Hk. destruct (depth_exists rels stop d) as (k' & Hk' & _). rewrite (depth_is_get _ _ _ _ Hk' k Hk). apply (H1 d k' Hd Hk').
  - intros Hne. destruct (H2 Hne) as (d & Hd & Hm). exists d. split; [exact Hd | apply Hm; unfold get_depth; lia].
Qed.
(** every feature below another is strictly shallower *)
Theorem C24_below_shallower rels f g n k : below rels [] f g -> get_depth rels None f = Ok n -> get_depth rels None g = Ok k -> k < n.
Proof.
  intros Hb Hn Hk. destruct (depth_exists rels None f) as (n' & Hn' & _). destruct (depth_exists rels None g) as (k' & Hk' & _). rewrite (depth_is_get _ _ _ _ Hn' n Hn), (depth_is_get _ _ _ _ Hk' k Hk).
  apply (below_depth rels None f g n' k'); auto. destruct f; [apply C24_dependencies in Hb; destruct Hb| | | | |]; reflexivity.
Qed.

(** a sum of a running total by session: amt, sid < cum by sid < sum; stopping at the running total cuts it to 1 *)
Example C24_nonvacuous :
  get_depth X_Demo.demo_rels None X_Demo.f_sumby = Ok 2 /\ get_depth X_Demo.demo_rels (Some [funique X_Demo.demo_rels X_Demo.f_cumby]) X_Demo.f_sumby = Ok 1 /\
  deep_deps X_Demo.demo_rels [] X_Demo.f_sumby = [X_Demo.f_cumby; X_Demo.f_amt; X_Demo.f_esid] /\ deep_deps X_Demo.demo_rels ["event: sid"] X_Demo.f_sumby = [X_Demo.f_cumby; X_Demo.f_amt] /\
  ~ bottom X_Demo.demo_rels [] X_Demo.f_sumby /\ fdeps X_Demo.f_sumby <> [].
Proof. split; [vm_compute; reflexivity|]. split; [vm_compute; reflexivity|]. split; [reflexivity|]. split; [vm_compute; reflexivity|]. split; [intros [(e & v & nm & H)|[]]; discriminate | discriminate]. Qed.

Print Assumptions C24_dependencies.
Print Assumptions C24_depth.
Print Assumptions C24_below_shallower.
