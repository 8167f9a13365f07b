From Verif Require Import Base BaseFacts M_Time M_Progress S_Progress.

Lemma name_eqb_spec a b : reflect (a = b) (name_eqb a b).
Proof.
  destruct a as [a1 a2], b as [b1 b2]. unfold name_eqb. cbn [fst snd]. destruct (Z.eqb_spec a1 b1); cbn; [|constructor; congruence].
  destruct (Z.eqb_spec a2 b2); constructor; congruence.
Qed.
Lemma name_eqb_refl n : name_eqb n n = true.
Proof. destruct (name_eqb_spec n n); congruence. Qed.

Definition on (n : file_name) (o : op) : bool :=
  match o with OpenTemp m | AppendLine m _ | Rename m => name_eqb n m | _ => false end.

(** the state of one name *)
Definition cell_t : Type := option (list string) * option (list string).
Definition cstep (s : cell_t) (o : op) : cell_t :=
  match o with
  | OpenTemp _ => (Some [], snd s)
  | AppendLine _ l => (option_map (fun ls => ls ++ [l]) (fst s), snd s)
  | Rename _ => (None, fst s)
  | _ => s
  end.

Lemma step_project s o s' n : step s o = Some (Ok s') ->
  (temp s' n, final s' n) = if on n o then cstep (temp s n, final s n) o else (temp s n, final s n).
Proof.
  destruct o as [b| |m|m l|m]; cbn [step on cstep fst snd].
  - destruct (Bool.eqb b (temp_dir s)); intros H; [injection H as <-; reflexivity | discriminate].
  - destruct (temp_dir s); intros H; [discriminate | injection H as <-; reflexivity].
  - destruct (temp_dir s); intros H; [injection H as <- | discriminate]. cbn [temp final]. unfold fset. destruct (name_eqb n m); reflexivity.
  - destruct (temp s m) as [ls|] eqn:E; intros H; [injection H as <- | discriminate]. cbn [temp final]. unfold fset.
    destruct (name_eqb_spec n m) as [->|]; [rewrite E; reflexivity | reflexivity].
  - destruct (temp s m) as [ls|] eqn:E; intros H; [injection H as <- | discriminate]. cbn [temp final]. unfold fset.
    destruct (name_eqb_spec n m) as [->|]; [rewrite E; reflexivity | reflexivity].
Qed.

Lemma exec_project n tr : forall s s', exec s tr = Some (Ok s') ->
  (temp s' n, final s' n) = fold_left cstep (filter (on n) tr) (temp s n, final s n).
Proof.
  induction tr as [|o tr IH]; intros s s' H; cbn [exec filter] in *; [injection H as <-; reflexivity|].
  destruct (step s o) as [[s1|e]|] eqn:E; try discriminate. rewrite (IH _ _ H), (step_project _ _ _ n E).
  destruct (on n o); reflexivity.
Qed.

(** one name of one process *)
Lemma body_steps m ls : forall (n : file_name) c, fold_left cstep (body m ls) c = (None, Some ls).
Proof.
  intros _ c. unfold body. cbn [fold_left cstep]. rewrite fold_left_app.
  assert (forall acc, fold_left cstep (map (AppendLine m) ls) (Some acc, snd c) = (Some (acc ++ ls), snd c)) as H.
  { induction ls as [|l ls IH]; intros acc; cbn [map fold_left cstep option_map fst snd]; [rewrite app_nil_r; reflexivity|]. rewrite IH, <- app_assoc. reflexivity. }
  rewrite H. reflexivity.
Qed.

Lemma prefix_app {A} (pre a b : list A) : prefix_of pre (a ++ b) -> prefix_of pre a \/ exists pre', pre = a ++ pre' /\ prefix_of pre' b.
Proof.
  revert pre. induction a as [|x a IH]; intros pre [rest H]; cbn [app] in H.
  - right. exists pre. split; [reflexivity | exists rest; exact H].
  - destruct pre as [|y pre]; cbn [app] in H; [left; exists (x :: a); reflexivity|]. injection H as -> H.
    destruct (IH pre (ex_intro _ rest H)) as [[r ->]|(p' & -> & Hp)].
    + left. exists r. reflexivity.
    + right. exists p'. split; [reflexivity | exact Hp].
Qed.

Lemma prefix_filter {A} (f : A -> bool) pre l : prefix_of pre l -> prefix_of (filter f pre) (filter f l).
Proof. intros [r ->]. exists (filter f r). apply filter_app. Qed.

Lemma body_prefix m ls pre c : prefix_of pre (body m ls) -> snd (fold_left cstep pre c) = snd c \/ pre = body m ls.
Proof.
  intros H. change (body m ls) with ((OpenTemp m :: map (AppendLine m) ls) ++ [Rename m]) in H. apply prefix_app in H as [H|(p' & -> & H)].
  - left. destruct H as [r H]. revert c.
    assert (Forall (fun o => forall c, snd (cstep c o) = snd c) pre) as HF.
    { assert (Forall (fun o => forall c, snd (cstep c o) = snd c) (OpenTemp m :: map (AppendLine m) ls)) as HA.
      { constructor; [reflexivity|]. apply Forall_forall. intros o Ho. apply in_map_iff in Ho as (l & <- & _). reflexivity. }
      rewrite H in HA. apply Forall_app in HA. apply HA. }
    clear H. induction HF as [|o pre Ho HF IH]; intros c; cbn [fold_left]; [reflexivity|]. rewrite IH. apply Ho.
  - destruct p' as [|o p']; [|right].
    + left. rewrite app_nil_r. cbn [fold_left cstep]. generalize (@Some (list string) []) as t. induction ls as [|l ls IH]; intros t; cbn [map fold_left cstep fst snd]; [reflexivity|]. apply IH.
    + destruct H as [r H]. injection H as <- H. destruct p'; [|discriminate]. reflexivity.
Qed.

(** the blocks of one name *)
Definition bodies (n : file_name) (calls : list (Z * list string * bool)) : list op :=
  flat_map (fun c => body n (snd (fst c))) (filter (fun c => name_eqb n (name_of (fst (fst c)))) calls).

Lemma filter_body n m ls : filter (on n) (body m ls) = if name_eqb n m then body m ls else [].
Proof.
  unfold body. cbn [filter on]. rewrite filter_app. cbn [filter on].
  assert (filter (on n) (map (AppendLine m) ls) = if name_eqb n m then map (AppendLine m) ls else []) as ->.
  { induction ls as [|l ls IH]; cbn [map filter on]; [destruct (name_eqb n m); reflexivity|]. rewrite IH. destruct (name_eqb n m); reflexivity. }
  destruct (name_eqb n m); reflexivity.
Qed.

Lemma filter_process n calls : filter (on n) (process calls) = bodies n calls.
Proof.
  unfold process, bodies. induction calls as [|[[t ls] b] calls IH]; cbn [flat_map filter fst snd]; [reflexivity|]. rewrite filter_app, IH.
  assert (filter (on n) (call_ops t ls b) = filter (on n) (body (name_of t) ls)) as -> by (unfold call_ops; destruct b; reflexivity).
  rewrite filter_body. destruct (name_eqb_spec n (name_of t)) as [<-|]; reflexivity.
Qed.

Lemma bodies_prefix n calls : forall pre c, prefix_of pre (bodies n calls) ->
  snd (fold_left cstep pre c) = snd c \/ exists t ls b, In (t, ls, b) calls /\ n = name_of t /\ snd (fold_left cstep pre c) = Some ls.
Proof.
  unfold bodies. induction calls as [|[[t ls] b] calls IH]; intros pre c H; cbn [filter flat_map fst snd] in H.
  - left. destruct H as [r H]. destruct pre; [reflexivity | discriminate].
  - destruct (name_eqb_spec n (name_of t)) as [Hn|Hn]; cbn [flat_map fst snd] in H.
    + apply prefix_app in H as [H|(p' & -> & H)].
      * destruct (body_prefix _ _ _ c H) as [E | ->]; [left; exact E|]. right. exists t, ls, b. rewrite (body_steps n ls n). split; [left; reflexivity|]. auto.
      * rewrite fold_left_app, (body_steps n ls n). destruct (IH p' (None, Some ls) H) as [E|(t' & ls' & b' & Hi & Hn' & E)].
        -- right. exists t, ls, b. rewrite E. split; [left; reflexivity|]. auto.
        -- right. exists t', ls', b'. split; [right; exact Hi|]. auto.
    + destruct (IH pre c H) as [E|(t' & ls' & b' & Hi & Hn' & E)]; [left; exact E|]. right. exists t', ls', b'. split; [right; exact Hi|]. auto.
Qed.

Lemma bodies_full n calls c t ls b : In (t, ls, b) calls -> n = name_of t -> (forall t' ls' b', In (t', ls', b') calls -> n = name_of t' -> ls' = ls) ->
  fold_left cstep (bodies n calls) c = (None, Some ls).
Proof.
  intros Hin Hn Hu. subst n. unfold bodies. set (f := filter _ calls).
  assert (forall x, In x f -> snd (fst x) = ls) as Hall.
  { intros [[t' ls'] b'] Hx. unfold f in Hx. apply filter_In in Hx as [Hx Hx2]. cbn [fst snd] in *. destruct (name_eqb_spec (name_of t) (name_of t')); [|discriminate]. eauto. }
  assert (f <> []) as Hf by (intros E; assert (In (t, ls, b) f) as Hf by (unfold f; apply filter_In; split; [exact Hin | apply name_eqb_refl]); rewrite E in Hf; exact Hf).
  clearbody f. clear Hin Hu. revert c. induction f as [|x f IH]; [congruence|]. intros c. cbn [flat_map]. rewrite fold_left_app, (body_steps (name_of t) _ (name_of t)).
  rewrite (Hall x (or_introl eq_refl)). destruct f as [|y f]; [reflexivity|]. apply IH; [intros z Hz; apply Hall; right; exact Hz | discriminate].
Qed.

(** mixing processes *)
Lemma nth_replace {A} (ps1 : list A) p q ps2 i d : i <> List.length ps1 -> nth i (ps1 ++ p :: ps2) d = nth i (ps1 ++ q :: ps2) d.
Proof.
  revert i. induction ps1 as [|x ps1 IH]; intros i H; destruct i; cbn in *; try reflexivity; [congruence|]. apply IH. congruence.
Qed.
Lemma nth_here {A} (ps1 : list A) p ps2 d : nth (List.length ps1) (ps1 ++ p :: ps2) d = p.
Proof. induction ps1; cbn; auto. Qed.

Lemma concat_filter_nil (f : op -> bool) ps : (forall p, In p ps -> filter f p = []) -> filter f (List.concat ps) = [].
Proof. induction ps as [|p ps IH]; intros H; cbn [List.concat]; [reflexivity|]. rewrite filter_app, (H p (or_introl eq_refl)), IH; [reflexivity | intros; apply H; right; assumption]. Qed.

Lemma interleave_filter f ps tr : interleave ps tr ->
  (forall i j, i <> j -> filter f (nth i ps []) = [] \/ filter f (nth j ps []) = []) -> filter f tr = filter f (List.concat ps).
Proof.
  induction 1 as [ps H | ps1 o p ps2 tr H IH]; intros Hs.
  - rewrite concat_filter_nil; [reflexivity|]. intros p Hp. rewrite Forall_forall in H. rewrite (H p Hp). reflexivity.
  - assert (forall i j, i <> j -> filter f (nth i (ps1 ++ p :: ps2) []) = [] \/ filter f (nth j (ps1 ++ p :: ps2) []) = []) as Hs'.
    { assert (forall i, filter f (nth i (ps1 ++ (o :: p) :: ps2) []) = [] -> filter f (nth i (ps1 ++ p :: ps2) []) = []) as Hm.
      { intros i. destruct (Nat.eq_dec i (List.length ps1)) as [->|Hi].
        - rewrite !nth_here. cbn [filter]. destruct (f o); [discriminate | auto].
        - rewrite (nth_replace ps1 (o :: p) p ps2 i [] Hi). auto. }
      intros i j Hij. destruct (Hs i j Hij); [left | right]; apply Hm; assumption. }
    rewrite !concat_app. cbn [List.concat filter]. rewrite (IH Hs'), concat_app. cbn [List.concat]. rewrite !filter_app. cbn [app filter].
    destruct (f o) eqn:Eo; [|reflexivity].
    assert (filter f (List.concat ps1) = []) as E1.
    { apply concat_filter_nil. intros q Hq. apply (In_nth _ _ []) in Hq as (i & Hi & <-). destruct (Hs i (List.length ps1) ltac:(lia)) as [E|E].
      - rewrite app_nth1 in E by exact Hi. exact E.
      - rewrite nth_here in E. cbn [filter] in E. rewrite Eo in E. discriminate. }
    rewrite E1. reflexivity.
Qed.

Lemma bodies_app n a b : bodies n (a ++ b) = bodies n a ++ bodies n b.
Proof. unfold bodies. rewrite filter_app, flat_map_app. reflexivity. Qed.
Lemma filter_processes n pss : filter (on n) (List.concat (map process pss)) = bodies n (List.concat pss).
Proof.
  induction pss as [|ps pss IH]; cbn [map List.concat]; [reflexivity|]. rewrite filter_app, IH, filter_process, bodies_app. reflexivity.
Qed.

Lemma processes_solo n pss : names_disjoint pss ->
  forall i j, i <> j -> filter (on n) (nth i (map process pss) []) = [] \/ filter (on n) (nth j (map process pss) []) = [].
Proof.
  intros H i j Hij. change (@nil op) with (process []) at 1 3. rewrite !map_nth, !filter_process.
  assert (forall k, bodies n (nth k pss []) = [] \/ exists c, In c (nth k pss []) /\ n = name_of (fst (fst c))) as Hb.
  { intros k. unfold bodies. destruct (filter _ (nth k pss [])) as [|c l] eqn:E; [left; reflexivity|]. right. exists c.
    assert (In c (c :: l)) as Hc by (left; reflexivity). rewrite <- E in Hc. apply filter_In in Hc as [Hc Hn]. split; [exact Hc|]. destruct (name_eqb_spec n (name_of (fst (fst c)))); [assumption | discriminate]. }
  destruct (Hb i) as [|(c & Hc & En)]; [auto|]. destruct (Hb j) as [|(c' & Hc' & En')]; [auto|]. exfalso. apply (H i j c c' Hij Hc Hc'). congruence.
Qed.

Lemma interleave_bodies n pss tr : names_disjoint pss -> interleave (map process pss) tr -> filter (on n) tr = bodies n (List.concat pss).
Proof. intros H Hi. rewrite (interleave_filter _ _ _ Hi (processes_solo n pss H)). apply filter_processes. Qed.

(** one process never raises *)
Lemma exec_app a : forall s b, exec s (a ++ b) = match exec s a with Some (Ok s') => exec s' b | r => r end.
Proof. induction a as [|o a IH]; intros s b; cbn [app exec]; [reflexivity|]. destruct (step s o) as [[s'|]|]; auto. Qed.
Lemma body_runs n ls s : temp_dir s = true -> exists s', exec s (body n ls) = Some (Ok s') /\ temp_dir s' = true.
Proof.
  intros H. unfold body. cbn [exec step]. rewrite H. rewrite exec_app.
  assert (forall s acc, temp_dir s = true -> temp s n = Some acc -> exists s' acc', exec s (map (AppendLine n) ls) = Some (Ok s') /\ temp_dir s' = true /\ temp s' n = Some acc') as Ha.
  { clear. induction ls as [|l ls IH]; intros s acc Hd Ht; cbn [map exec step]; [eauto 6|]. rewrite Ht. eapply IH; cbn [temp_dir temp]; [exact Hd|]. unfold fset. rewrite name_eqb_refl. reflexivity. }
  destruct (Ha (mkFs true (fset n (Some []) (temp s)) (final s)) []) as (s' & acc & -> & Hd & Ht); [reflexivity | cbn [temp]; unfold fset; rewrite name_eqb_refl; reflexivity|].
  cbn [exec step]. rewrite Ht. eexists. split; [reflexivity|]. exact Hd.
Qed.
Lemma process_runs calls : forall s, exists flags s', List.length flags = List.length calls /\ exec s (process (combine calls flags)) = Some (Ok s').
Proof.
  induction calls as [|[t ls] calls IH]; intros s; [exists [], s; split; reflexivity|].
  assert (exists b s1, exec s (call_ops t ls b) = Some (Ok s1)) as (b & s1 & E1).
  { destruct (temp_dir s) eqn:Ed.
    - destruct (body_runs (name_of t) ls s Ed) as (s1 & E & _). exists true, s1. unfold call_ops. cbn [exec step]. rewrite Ed. cbn [Bool.eqb]. exact E.
    - destruct (body_runs (name_of t) ls (mkFs true (temp s) (final s)) eq_refl) as (s1 & E & _). exists false, s1. unfold call_ops. cbn [exec step]. rewrite Ed. cbn [Bool.eqb]. rewrite Ed. exact E. }
  destruct (IH s1) as (flags & s' & Hl & E). exists (b :: flags), s'. split; [cbn; congruence|]. cbn [combine process flat_map fst snd]. rewrite exec_app, E1. exact E.
Qed.
