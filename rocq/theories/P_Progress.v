(** C13: progress files. *)
From Verif Require Import Base BaseFacts M_Time M_Progress S_Progress L_Progress.

(** Whatever mixing of the processes' steps happens and wherever it stops, a file under a final name is complete - provided
    that different processes write different names. *)
Theorem C13_crash_safe_partial : forall pss tr pre s0 s, names_disjoint pss ->
  interleave (map process pss) tr -> prefix_of pre tr -> exec s0 pre = Some (Ok s) ->
  only_complete s0 (List.concat pss) s.
Proof.
  intros pss tr pre s0 s Hd Hi Hp He n ls Hf. pose proof (exec_project n _ _ _ He) as E. apply (prefix_filter (on n)) in Hp.
  rewrite (interleave_bodies n _ _ Hd Hi) in Hp. destruct (bodies_prefix n _ _ (temp s0 n, final s0 n) Hp) as [H|(t & ls' & b & Hin & Hn & H)];
    rewrite <- E in H; cbn [snd] in H; rewrite Hf in H; [left; symmetry; exact H|]. injection H as <-. eauto.
Qed.

(** In particular for one process, whatever the times. *)
Theorem C13_crash_safe_sequential : forall calls pre s0 s, prefix_of pre (process calls) -> exec s0 pre = Some (Ok s) ->
  only_complete s0 calls s.
Proof.
  intros calls pre s0 s Hp He.
  assert (forall ops, interleave [ops] ops) as Hi.
  { induction ops as [|o ops IH]; [constructor; repeat constructor|]. apply (il_step [] o ops [] ops). exact IH. }
  rewrite <- (app_nil_r calls). apply (C13_crash_safe_partial [calls] (process calls) pre s0 s); [|apply Hi|exact Hp|exact He].
  intros i j c c' Hij Hc Hc'. exfalso. destruct i as [|[|i]]; [|destruct Hc|destruct Hc]. destruct j as [|[|j]]; [congruence|destruct Hc'|destruct Hc'].
Qed.

(** After a complete run every call whose name no other result uses has its complete file. *)
Theorem C13_complete_run_partial : forall pss tr s0 s t ls b, names_disjoint pss -> interleave (map process pss) tr -> exec s0 tr = Some (Ok s) ->
  In (t, ls, b) (List.concat pss) -> (forall t' ls' b', In (t', ls', b') (List.concat pss) -> name_of t = name_of t' -> ls' = ls) ->
  final s (name_of t) = Some ls.
Proof.
  intros pss tr s0 s t ls b Hd Hi He Hin Hu. pose proof (exec_project (name_of t) _ _ _ He) as E.
  rewrite (interleave_bodies _ _ _ Hd Hi), (bodies_full _ _ _ t ls b Hin eq_refl Hu) in E. congruence.
Qed.

(** A single process never fails: from any directory some choice of observations is an execution. *)
Theorem C13_sequential_runs : forall calls s, exists flags s', List.length flags = List.length calls /\ exec s (process (combine calls flags)) = Some (Ok s').
Proof. exact process_runs. Qed.

(** Names are equal exactly for times of one day at the same microsecond of the 12-hour clock. *)
Theorem C13_same_name : forall t t', name_of t = name_of t' <->
  (t / day_ns = t' / day_ns /\ ((t mod day_ns) / 1000) mod half_day_us = ((t' mod day_ns) / 1000) mod half_day_us)%Z.
Proof. intros t t'. unfold name_of. split; [intros H; injection H; auto | intros [-> ->]; reflexivity]. Qed.

Definition empty_fs : fs := mkFs false (fun _ => None) (fun _ => None).
Definition nine_am : Z := 32400000000000.
Definition nine_pm : Z := 75600000000000.
Local Open Scope string_scope.
Local Open Scope list_scope.

Example C13_nonvacuous :
  names_disjoint [[(nine_am, ["a"; "b"], false)]; [(day_ns, ["c"], true)]] /\
  exists s, exec empty_fs (process [(nine_am, ["a"; "b"], false); (day_ns, ["c"], true)]) = Some (Ok s) /\
    final s (name_of nine_am) = Some ["a"; "b"] /\ final s (name_of day_ns) = Some ["c"] /\
  exists s1, exec empty_fs (firstn 4 (process [(nine_am, ["a"; "b"], false); (day_ns, ["c"], true)])) = Some (Ok s1) /\ temp s1 (name_of nine_am) = Some ["a"] /\ final s1 (name_of nine_am) = None.
Proof.
  split.
  - intros i j c c' Hij Hc Hc'. destruct i as [|[|[|i]]], j as [|[|[|j]]]; cbn in Hc, Hc'; try congruence; try tauto;
      destruct Hc as [<-|[]], Hc' as [<-|[]]; vm_compute; discriminate.
  - eexists. split; [reflexivity|]. split; [reflexivity|]. split; [reflexivity|]. eexists. split; [reflexivity|]. split; reflexivity.
Qed.

(** Two cutoffs twelve hours apart: one result is lost. *)
Theorem C13_twelve_hours_refuted : exists calls s, exec empty_fs (process calls) = Some (Ok s) /\
  calls = [(nine_am, ["morning"], false); (nine_pm, ["evening"], true)] /\
  forall n, final s n = if name_eqb n (name_of nine_am) then Some ["evening"] else None.
Proof.
  destruct (exec empty_fs (process [(nine_am, ["morning"], false); (nine_pm, ["evening"], true)])) as [[s|]|] eqn:E; [|vm_compute in E; discriminate E|vm_compute in E; discriminate E].
  exists [(nine_am, ["morning"], false); (nine_pm, ["evening"], true)], s. split; [exact E|]. split; [reflexivity|]. intros n.
  pose proof (exec_project n _ _ _ E) as H. rewrite filter_process in H. unfold bodies in H. cbn [filter fst snd] in H.
  assert (name_of nine_pm = name_of nine_am) as En by (vm_compute; reflexivity). rewrite En in H.
  destruct (name_eqb n (name_of nine_am)); cbn in H; injection H as _ ->; reflexivity.
Qed.

(** One cutoff time split over two chunks: the second overwrites the first. *)
Theorem C13_split_time_refuted : exists s, exec empty_fs (process [(nine_am, ["instances 1-10"], false); (nine_am, ["instances 11-20"], true)]) = Some (Ok s) /\
  final s (name_of nine_am) = Some ["instances 11-20"].
Proof. eexists. split; reflexivity. Qed.

(** Two workers with one name: a partial file gets a final name. *)
Theorem C13_parallel_same_name_refuted : exists tr s,
  interleave [process [(nine_am, ["a1"; "a2"], true)]; process [(nine_am, ["b1"; "b2"], true)]] tr /\
  exists pre, prefix_of pre tr /\ exec (mkFs true (fun _ => None) (fun _ => None)) pre = Some (Ok s) /\
  final s (name_of nine_am) = Some ["b1"] .
Proof.
  eexists ([Seen true; OpenTemp (name_of nine_am); AppendLine (name_of nine_am) "a1"; AppendLine (name_of nine_am) "a2"] ++
           [Seen true; OpenTemp (name_of nine_am); AppendLine (name_of nine_am) "b1"] ++ [Rename (name_of nine_am)] ++
           [AppendLine (name_of nine_am) "b2"; Rename (name_of nine_am)]), _.
  split.
  - unfold process. cbn [flat_map fst snd call_ops body map app]. 
    do 4 apply (il_step []). do 3 apply (il_step [_]). apply (il_step []). do 2 apply (il_step [_]). constructor. repeat constructor.
  - eexists ([Seen true; OpenTemp (name_of nine_am); AppendLine (name_of nine_am) "a1"; AppendLine (name_of nine_am) "a2"] ++
           [Seen true; OpenTemp (name_of nine_am); AppendLine (name_of nine_am) "b1"] ++ [Rename (name_of nine_am)]).
    split; [eexists [_; _]; reflexivity|]. split; reflexivity.
Qed.

(** Two workers that both find no temp directory: one of them fails. *)
Theorem C13_makedirs_race_refuted : exists tr,
  interleave [process [(nine_am, ["a"], false)]; process [(day_ns, ["b"], false)]] tr /\ exec empty_fs tr = Some (Err RuntimeError).
Proof.
  eexists ([Seen false] ++ [Seen false; MkTemp] ++ [MkTemp; OpenTemp _; AppendLine _ "a"; Rename _] ++ [OpenTemp _; AppendLine _ "b"; Rename _]). split.
  - unfold process. cbn [flat_map fst snd call_ops body map app]. apply (il_step []). do 2 apply (il_step [_]). do 4 apply (il_step []). do 3 apply (il_step [_]). constructor. repeat constructor.
  - reflexivity.
Qed.

(** Numeric cutoff times cannot be saved. *)
Theorem C13_numeric_times_refuted : forall z, progress_name (AtNumber z) = Err AttributeError.
Proof. reflexivity. Qed.

Print Assumptions C13_crash_safe_partial.
Print Assumptions C13_complete_run_partial.
Print Assumptions C13_sequential_runs.
