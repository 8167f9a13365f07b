(** C95: entry points told about calls. *)
From Coq Require Import String List Bool Lia Arith.
From Verif Require Import Base BaseFacts M_Observe S_Observe.
Import ListNotations.

Section Facts.
  Context {V E : Type}.
  Implicit Types (os : list (observer V E)).

  Lemma send_call_harmless : forall os, Forall harmless os -> forall i d, snd (send_call i os d) = None /\
    (forall x, In x (fst (send_call i os d)) -> exists k d', x = OnCall k d' /\ i <= k) /\
    (forall j, j < List.length os -> exists d' b1 b2, fst (send_call i os d) = b1 ++ OnCall (i + j) d' :: b2 /\
       forall x, In x (b1 ++ b2) -> exists k d'', x = OnCall k d'' /\ k <> i + j).
  Proof.
    intros os H. induction H as [|o os Ho H IH]; intros i d.
    - split; [reflexivity|]. split; [intros x []|]. intros j Hj. cbn in Hj. lia.
    - destruct Ho as (Hc & _ & _). destruct (Hc d) as [d1 Hd1]. cbn [send_call]. rewrite Hd1. destruct (IH (S i) d1) as (H1 & H2 & H3). cbn [fst snd].
      split; [exact H1|]. split.
      + intros x [<- | Hx]; [exists i, d; split; [reflexivity | lia]|]. destruct (H2 x Hx) as (k & d' & -> & Hk). exists k, d'. split; [reflexivity | lia].
      + intros [|j] Hj.
        * exists d, [], (fst (send_call (S i) os d1)). rewrite Nat.add_0_r. split; [reflexivity|]. intros x Hx. destruct (H2 x Hx) as (k & d' & -> & Hk).
          exists k, d'. split; [reflexivity | lia].
        * cbn [List.length] in Hj. destruct (H3 j ltac:(lia)) as (d' & b1 & b2 & He & Hb). exists d', (OnCall i d :: b1), b2. rewrite He.
          split; [replace (i + S j) with (S i + j) by lia; reflexivity|]. intros x [<- | Hx]; [exists i, d; split; [reflexivity | lia]|].
          destruct (Hb x Hx) as (k & d'' & -> & Hk). exists k, d''. split; [reflexivity | lia].
  Qed.

  Lemma send_return_harmless : forall v os, Forall harmless os -> forall i, snd (send_return i os v) = None /\
    (forall x, In x (fst (send_return i os v)) -> exists k, x = OnReturn k v /\ i <= k) /\
    (forall j, j < List.length os -> exists b1 b2, fst (send_return i os v) = b1 ++ OnReturn (i + j) v :: b2 /\
       forall x, In x (b1 ++ b2) -> exists k, x = OnReturn k v /\ k <> i + j).
  Proof.
    intros v os H. induction H as [|o os Ho H IH]; intros i.
    - split; [reflexivity|]. split; [intros x []|]. intros j Hj. cbn in Hj. lia.
    - destruct Ho as (_ & _ & Hr). cbn [send_return]. rewrite (Hr v). destruct (IH (S i)) as (H1 & H2 & H3). cbn [fst snd].
      split; [exact H1|]. split.
      + intros x [<- | Hx]; [exists i; split; [reflexivity | lia]|]. destruct (H2 x Hx) as (k & -> & Hk). exists k. split; [reflexivity | lia].
      + intros [|j] Hj.
        * exists [], (fst (send_return (S i) os v)). rewrite Nat.add_0_r. split; [reflexivity|]. intros x Hx. destruct (H2 x Hx) as (k & -> & Hk).
          exists k. split; [reflexivity | lia].
        * cbn [List.length] in Hj. destruct (H3 j ltac:(lia)) as (b1 & b2 & He & Hb). exists (OnReturn i v :: b1), b2. rewrite He.
          split; [replace (i + S j) with (S i + j) by lia; reflexivity|]. intros x [<- | Hx]; [exists i; split; [reflexivity | lia]|].
          destruct (Hb x Hx) as (k & -> & Hk). exists k. split; [reflexivity | lia].
  Qed.

  Lemma send_error_harmless : forall v os, Forall harmless os -> forall i, snd (send_error i os v) = None /\
    (forall x, In x (fst (send_error i os v)) -> exists k, x = OnError k v /\ i <= k) /\
    (forall j, j < List.length os -> exists b1 b2, fst (send_error i os v) = b1 ++ OnError (i + j) v :: b2 /\
       forall x, In x (b1 ++ b2) -> exists k, x = OnError k v /\ k <> i + j).
  Proof.
    intros v os H. induction H as [|o os Ho H IH]; intros i.
    - split; [reflexivity|]. split; [intros x []|]. intros j Hj. cbn in Hj. lia.
    - destruct Ho as (_ & Hr & _). cbn [send_error]. rewrite (Hr v). destruct (IH (S i)) as (H1 & H2 & H3). cbn [fst snd].
      split; [exact H1|]. split.
      + intros x [<- | Hx]; [exists i; split; [reflexivity | lia]|]. destruct (H2 x Hx) as (k & -> & Hk). exists k. split; [reflexivity | lia].
      + intros [|j] Hj.
        * exists [], (fst (send_error (S i) os v)). rewrite Nat.add_0_r. split; [reflexivity|]. intros x Hx. destruct (H2 x Hx) as (k & -> & Hk).
          exists k. split; [reflexivity | lia].
        * cbn [List.length] in Hj. destruct (H3 j ltac:(lia)) as (b1 & b2 & He & Hb). exists (OnError i v :: b1), b2. rewrite He.
          split; [replace (i + S j) with (S i + j) by lia; reflexivity|]. intros x [<- | Hx]; [exists i; split; [reflexivity | lia]|].
          destruct (Hb x Hx) as (k & -> & Hk). exists k. split; [reflexivity | lia].
  Qed.
End Facts.

(** C95: as long as no report fails, the caller gets what the function gives, whatever the entry points do to the dictionary *)
Theorem C95_transparent_partial : forall V E params (func : list V -> named V -> ending V E) os args kwargs, Forall harmless os ->
  snd (wrapped params func os args kwargs) = func args kwargs.
Proof.
  intros V E params func os args kwargs H. unfold wrapped.
  destruct (send_call_harmless os H 0 (call_kwargs params args kwargs)) as (-> & _ & _).
  destruct (func args kwargs) as [v | e | e]; cbn [snd]; [|
    destruct (send_error_harmless e os H 0) as (-> & _ & _); reflexivity | reflexivity].
  destruct (send_return_harmless v os H 0) as (-> & _ & _). reflexivity.
Qed.

(** C95: the function runs at most once, with the caller's own arguments *)
Theorem C95_runs : forall V E params (func : list V -> named V -> ending V E) os args kwargs,
  let t := fst (wrapped params func os args kwargs) in
  (forall a k, In (Run a k) t -> a = args /\ k = kwargs) /\
  (forall b1 b2, t = b1 ++ Run args kwargs :: b2 -> forall a k, ~ In (Run a k) (b1 ++ b2)).
Proof.
  intros V E params func os args kwargs.
  assert (Hc : forall os i d a k, ~ In (Run a k) (fst (@send_call V E i os d))).
  { clear. induction os as [|o os IH]; intros i d a k; [intros []|]. cbn [send_call]. destruct (o_call o d) as [d'|e]; cbn [fst].
    - intros [H | H]; [discriminate H | exact (IH _ _ _ _ H)].
    - intros [H | []]. discriminate H. }
  assert (He : forall os i d a k, ~ In (Run a k) (fst (@send_error V E i os d))).
  { clear. induction os as [|o os IH]; intros i d a k; [intros []|]. cbn [send_error]. destruct (o_error o d) as [d'|]; cbn [fst].
    - intros [H | []]. discriminate H.
    - intros [H | H]; [discriminate H | exact (IH _ _ _ _ H)]. }
  assert (Hr : forall os i d a k, ~ In (Run a k) (fst (@send_return V E i os d))).
  { clear. induction os as [|o os IH]; intros i d a k; [intros []|]. cbn [send_return]. destruct (o_return o d) as [d'|]; cbn [fst].
    - intros [H | []]. discriminate H.
    - intros [H | H]; [discriminate H | exact (IH _ _ _ _ H)]. }
  assert (Hsh : let t := fst (wrapped params func os args kwargs) in
    (forall a k, ~ In (Run a k) t) \/ exists x y, t = x ++ Run args kwargs :: y /\ (forall a k, ~ In (Run a k) x) /\ (forall a k, ~ In (Run a k) y)).
  { unfold wrapped. destruct (snd (send_call 0 os (call_kwargs params args kwargs))) as [e|]; cbn zeta; cbn [fst].
    - left. intros a k. apply Hc.
    - right. exists (fst (send_call 0 os (call_kwargs params args kwargs))).
      destruct (func args kwargs) as [v | e | e]; cbn [fst].
      + exists (fst (send_return 0 os v)). rewrite <- app_assoc. auto.
      + exists (fst (send_error 0 os e)). rewrite <- app_assoc. auto.
      + exists []. auto. }
  cbn zeta in *. set (t := fst (wrapped params func os args kwargs)) in *. clearbody t. destruct Hsh as [Hn | (x & y & -> & Hx & Hy)].
  - split; [intros a k Hin; destruct (Hn a k Hin)|]. intros b1 b2 -> a k _. apply (Hn args kwargs). apply in_or_app. right. left. reflexivity.
  - split.
    + intros a k Hin. apply in_app_or in Hin. destruct Hin as [Hin | [Hin | Hin]]; [destruct (Hx a k Hin) | injection Hin as <- <-; auto | destruct (Hy a k Hin)].
    + intros b1. revert x Hx. induction b1 as [|z b1 IH]; intros x Hx b2 Heq a k Hin.
      * destruct x as [|z x]; cbn [app] in Heq.
        -- injection Heq as H2. subst b2. exact (Hy a k Hin).
        -- injection Heq as H1 H2. apply (Hx args kwargs). left. exact H1.
      * destruct x as [|z' x]; cbn [app] in Heq; injection Heq as H1 H2.
        -- apply (Hy args kwargs). rewrite H2. apply in_or_app. right. left. reflexivity.
        -- subst z'. destruct Hin as [Hin | Hin]; [apply (Hx a k); left; exact Hin|].
           apply (IH x) with b2 a k; [intros a' k' Hi; apply (Hx a' k'); right; exact Hi | exact H2 | exact Hin].
Qed.

(** C95: as long as no report fails, every entry point is told of the call and then, once, of its value or error *)
Theorem C95_told_partial : forall V E params (func : list V -> named V -> ending V E) os args kwargs i, Forall harmless os -> i < List.length os ->
  let t := fst (wrapped params func os args kwargs) in
  (forall v, func args kwargs = Done v -> told t i args kwargs (OnReturn i v)) /\
  (forall e, func args kwargs = Fail e -> told t i args kwargs (OnError i e)).
Proof.
  intros V E params func os args kwargs i H Hi. cbn zeta. unfold wrapped.
  destruct (send_call_harmless os H 0 (call_kwargs params args kwargs)) as (-> & _ & Hc). destruct (Hc i Hi) as (d & b1 & b2 & -> & Hb).
  cbn [Nat.add] in *. split.
  - intros v ->. destruct (send_return_harmless v os H 0) as (_ & _ & Hr). destruct (Hr i Hi) as (b3 & b4 & Hq & Hb'). cbn [fst Nat.add] in *. rewrite Hq.
    exists d, b1, b2, b3, b4. split; [rewrite <- !app_assoc; reflexivity|].
    intros x Hx. rewrite app_assoc in Hx. apply in_app_or in Hx. destruct Hx as [Hx | Hx].
    + destruct (Hb x Hx) as (k & d' & -> & Hk). repeat split; intros; try discriminate. intros [= -> _]. apply Hk. reflexivity.
    + destruct (Hb' x Hx) as (k & -> & Hk). repeat split; intros; try discriminate. intros [= -> _]. apply Hk. reflexivity.
  - intros v ->. destruct (send_error_harmless v os H 0) as (_ & _ & Hr). destruct (Hr i Hi) as (b3 & b4 & Hq & Hb'). cbn [fst Nat.add] in *. rewrite Hq.
    exists d, b1, b2, b3, b4. split; [rewrite <- !app_assoc; reflexivity|].
    intros x Hx. rewrite app_assoc in Hx. apply in_app_or in Hx. destruct Hx as [Hx | Hx].
    + destruct (Hb x Hx) as (k & d' & -> & Hk). repeat split; intros; try discriminate. intros [= -> _]. apply Hk. reflexivity.
    + destruct (Hb' x Hx) as (k & -> & Hk). repeat split; intros; try discriminate. intros [= -> _]. apply Hk. reflexivity.
Qed.

Lemma call_kwargs_get : forall V params (args : list V) kwargs n, NoDup params ->
  dget String.eqb n (call_kwargs params args kwargs) =
  match find (fun pa => String.eqb n (snd pa)) (combine args params) with Some pa => Some (fst pa) | None => dget String.eqb n kwargs end.
Proof.
  intros V params. unfold call_kwargs. induction params as [|p params IH]; intros args kwargs n H; [destruct args; reflexivity|].
  inversion H as [|? ? Hp Hnd]; subst. destruct args as [|a args]; [reflexivity|]. cbn [combine fold_left find snd fst]. rewrite IH by exact Hnd.
  destruct (String.eqb_spec n p) as [-> | Hne].
  - destruct (find _ (combine args params)) as [[a' p']|] eqn:Ef.
    + apply find_some in Ef. destruct Ef as [Hin He]. apply String.eqb_eq in He. cbn [snd] in He. subst p'. apply in_combine_r in Hin. destruct (Hp Hin).
    + apply (dget_dset_same String.eqb String.eqb_spec).
  - destruct (find _ (combine args params)); [reflexivity|]. apply (dget_dset_other String.eqb String.eqb_spec). exact Hne.
Qed.

(** C95: the first entry point is sent each argument given, under the name of its parameter, and nothing else *)
Theorem C95_arguments : forall V E params (func : list V -> named V -> ending V E) o os args kwargs,
  NoDup params -> List.length args <= List.length params ->
  exists d t, fst (wrapped params func (o :: os) args kwargs) = OnCall 0 d :: t /\
    (forall j p a, nth_error params j = Some p -> nth_error args j = Some a -> dget String.eqb p d = Some a) /\
    (forall n, (forall j, j < List.length args -> nth_error params j <> Some n) -> dget String.eqb n d = dget String.eqb n kwargs).
Proof.
  intros V E params func o os args kwargs Hnd Hlen. exists (call_kwargs params args kwargs).
  assert (Hfst : exists t, fst (wrapped params func (o :: os) args kwargs) = OnCall 0 (call_kwargs params args kwargs) :: t).
  { unfold wrapped. cbn [send_call]. destruct (o_call o (call_kwargs params args kwargs)) as [d'|e]; cbn [fst snd].
    - destruct (snd (send_call 1 os d')) as [e|]; cbn [fst]; [eexists; reflexivity|].
      destruct (func args kwargs); cbn [fst app]; eexists; reflexivity.
    - eexists; reflexivity. }
  destruct Hfst as [t Ht]. exists t. split; [exact Ht|]. clear Ht. split.
  - intros j p a Hp Ha. rewrite call_kwargs_get by exact Hnd.
    assert (Hin : find (fun pa : V * string => String.eqb p (snd pa)) (combine args params) = Some (a, p)).
    { clear Hlen. revert j args Hp Ha Hnd. induction params as [|q params IH]; intros j args Hp Ha Hnd; [destruct j; discriminate Hp|].
      destruct args as [|b args]; [destruct j; discriminate Ha|]. cbn [combine find snd]. inversion Hnd as [|? ? Hq Hnd']; subst.
      destruct j as [|j]; cbn [nth_error] in *.
      - injection Hp as ->. injection Ha as ->. rewrite String.eqb_refl. reflexivity.
      - destruct (String.eqb_spec p q) as [-> | _]; [destruct (Hq (nth_error_In _ _ Hp))|]. exact (IH j args Hp Ha Hnd'). }
    rewrite Hin. reflexivity.
  - intros n Hn. rewrite call_kwargs_get by exact Hnd. destruct (find _ (combine args params)) as [[a p]|] eqn:Ef; [|reflexivity]. exfalso.
    apply find_some in Ef. destruct Ef as [Hin He]. apply String.eqb_eq in He. cbn [snd] in He. subst p.
    clear Hnd Hlen. revert args Hn Hin. induction params as [|q params IH]; intros args Hn Hin; [destruct args; destruct Hin|].
    destruct args as [|b args]; [destruct Hin|]. destruct Hin as [Hin | Hin].
    + injection Hin as -> ->. apply (Hn 0); [cbn; lia | reflexivity].
    + apply (IH args); [|exact Hin]. intros j Hj. apply (Hn (S j)). cbn. lia.
Qed.

Local Open Scope string_scope.
Definition ob_quiet : observer nat string := mkObserver (fun d => inl d) (fun _ => None) (fun _ => None).
Definition ob_adds : observer nat string := mkObserver (fun d => inl (dset String.eqb "seen" 1 d)) (fun _ => None) (fun _ => None).
Definition ob_broken : observer nat string := mkObserver (fun d => inl d) (fun _ => Some "report failed") (fun _ => Some "report failed").
Definition ob_refuses : observer nat string := mkObserver (fun _ => inr "no disk") (fun _ => None) (fun _ => None).

(** C95: a failing report hides the value, hides the error, or keeps the function from running *)
Theorem C95_failing_refuted :
  (exists func args kwargs, func args kwargs = Done 7 /\ snd (wrapped ["a"] func [ob_broken] args kwargs) = Fail "report failed") /\
  (exists func args kwargs, func args kwargs = Fail "bad argument" /\ snd (wrapped ["a"] func [ob_broken; ob_quiet] args kwargs) = Fail "report failed" /\
     ~ In (OnError 1 "bad argument") (fst (wrapped ["a"] func [ob_broken; ob_quiet] args kwargs))) /\
  (exists func args kwargs, func args kwargs = Done 7 /\ forall a k, ~ In (Run a k) (fst (wrapped ["a"] func [ob_refuses] args kwargs))).
Proof.
  split; [|split].
  - exists (fun _ _ => Done 7), [1], []. split; reflexivity.
  - exists (fun _ _ => Fail "bad argument"), [1], []. split; [reflexivity|]. split; [reflexivity|]. intros H. vm_compute in H. repeat destruct H as [H | H]; try discriminate H; exact H.
  - exists (fun _ _ => Done 7), [1], []. split; [reflexivity|]. intros a k. cbn. intros [H | []]. discriminate H.
Qed.

(** C95: when the call is interrupted, the entry points hear of its start but never of its end *)
Theorem C95_interrupted_refuted : exists func args kwargs,
  fst (wrapped ["a"] func [ob_quiet] args kwargs) = [OnCall 0 [("a", 1)]; Run [1] []] /\ snd (wrapped ["a"] func [ob_quiet] args kwargs) = Stop "KeyboardInterrupt".
Proof. exists (fun _ _ => Stop "KeyboardInterrupt"), [1], []. split; reflexivity. Qed.

(** C95: a second entry point may be sent what the first one added *)
Theorem C95_shared_refuted : exists func args kwargs d, In (OnCall 1 d) (fst (wrapped ["a"] func [ob_adds; ob_quiet] args kwargs)) /\
  dget String.eqb "seen" d = Some 1 /\ ~ In "seen" ["a"] /\ kwargs = [].
Proof.
  exists (fun _ _ => Done 7), [1], [], [("a", 1); ("seen", 1)]. split; [right; left; reflexivity|]. split; [reflexivity|]. split; [|reflexivity].
  intros [H | []]. discriminate H.
Qed.

Example C95_nonvacuous : Forall harmless [ob_quiet; ob_adds] /\ NoDup ["entities"; "relationships"; "entityset"] /\
  wrapped ["entities"; "relationships"; "entityset"] (fun a k => Done (List.length a + List.length k)) [ob_quiet; ob_adds; ob_quiet] [5; 6] [("target_entity", 8)] =
  ([OnCall 0 [("target_entity", 8); ("entities", 5); ("relationships", 6)]; OnCall 1 [("target_entity", 8); ("entities", 5); ("relationships", 6)];
    OnCall 2 [("target_entity", 8); ("entities", 5); ("relationships", 6); ("seen", 1)]; Run [5; 6] [("target_entity", 8)];
    OnReturn 0 3; OnReturn 1 3; OnReturn 2 3], Done 3).
Proof.
  split; [repeat constructor; cbn; eauto|]. split; [|reflexivity].
  repeat constructor; cbn; intros H; repeat destruct H as [H | H]; try discriminate H; exact H.
Qed.

Print Assumptions C95_transparent_partial.
Print Assumptions C95_runs.
Print Assumptions C95_told_partial.
Print Assumptions C95_arguments.
Print Assumptions C95_failing_refuted.
Print Assumptions C95_interrupted_refuted.
Print Assumptions C95_shared_refuted.
