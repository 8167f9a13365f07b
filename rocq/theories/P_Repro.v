(** C74: deep feature synthesis is reproducible: the order in which python iterates sets of features does not matter. *)
From Coq Require Import Permutation.
From Verif Require Import Base BaseFacts M_Schema M_Feature M_Types M_Serialize M_Match M_DFS S_Schema S_DFS S_Repro L_DFS P_DFS L_Repro.
Local Open Scope string_scope.
Local Open Scope list_scope.

Section Repro.
  Variable entities : list string.
  Variable variables : string -> list string.
  Variable vtypes : string -> string -> option vtyp.
  Variable interesting : string -> string -> list val.
  Variable index_of : string -> option string.
  Variable rels : list relationship.
  Variable p_ret : prim -> option vtyp.
  Variable p_inputs : prim -> option (list (list vtyp)).
  Variable attr : prim -> pattr.
  Variable subc : nat -> nat -> bool.
  Variable eq_prim : val -> prim.
  Variable arity_of : okey -> option nat.
  Variable lower : string -> string.
  (** two orders in which a set of features may be iterated *)
  Variables ord1 ord2 : list feat -> list feat.
  Hypothesis ord1_perm : forall l, Permutation (ord1 l) l.
  Hypothesis ord2_perm : forall l, Permutation (ord2 l) l.
  Variable A : dfs_args.
  Hypothesis no_seeds : g_seeds A = [].
  Notation dfs o := (build_features entities variables vtypes interesting index_of rels p_ret p_inputs attr subc eq_prim arity_of lower o A).
  Notation gen G D := (gen variables vtypes interesting rels p_ret p_inputs attr subc eq_prim A G D).

  Lemma sort_perm fs1 fs2 r1 : Permutation fs1 fs2 -> sort_by_depth rels fs1 = Ok r1 -> exists r2, sort_by_depth rels fs2 = Ok r2 /\ Permutation r1 r2.
  Proof.
    intros Hp. unfold sort_by_depth. destruct (mapM _ fs1) as [d1|] eqn:E; cbn [bind]; [|discriminate]. intros [= <-]. destruct (mapM_perm _ _ _ _ Hp E) as (d2 & -> & P2). cbn [bind]. eexists. split; [reflexivity|].
    apply Permutation_map. etransitivity; [apply isort_perm|]. etransitivity; [exact P2 | symmetry; apply isort_perm].
  Qed.
  Lemma finish_perm ret d1 d2 fs1 : (g_maxf A <= 0)%Z -> Permutation d1 d2 -> finish vtypes index_of rels p_ret A ret d1 = Ok fs1 -> exists fs2, finish vtypes index_of rels p_ret A ret d2 = Ok fs2 /\ Permutation fs1 fs2.
  Proof.
    intros Hm Hp. unfold finish. destruct (sort_by_depth rels _) as [r1|] eqn:E; cbn [bind]; [|discriminate]. intros [= <-].
    destruct (sort_perm _ _ r1 (filter_perm (fun f => negb (is_target_index index_of A f)) _ _ (filter_perm (fun f => match ret with Some ts => existsb (issub (ftype p_ret vtypes f)) ts | None => true end) _ _ (Permutation_map snd Hp))) E) as (r2 & -> & P2).
    cbn [bind]. eexists. split; [reflexivity|]. destruct (Z.ltb_spec 0 (g_maxf A)); [lia|]. apply filter_perm. exact P2.
  Qed.

  Lemma dfs_lock ret tf fuel fs1 :
    (forall G f g, gen G (depth_limit entities A) f -> gen G (depth_limit entities A) g -> fentity f = fentity g -> fname rels f = fname rels g -> f = g) ->
    ((exists p, In p (g_trans A ++ g_groups A ++ g_aggs A) /\ a_comm (attr p) = true) ->
     forall G f g, gen G (depth_limit entities A) f -> gen G (depth_limit entities A) g -> fentity f = fentity g -> lower (fname rels f) = lower (fname rels g) -> fname rels f = fname rels g) ->
    dfs ord1 ret tf fuel = Ok fs1 ->
    ((g_maxf A <= 0)%Z -> exists fs2, dfs ord2 ret tf fuel = Ok fs2 /\ Permutation fs1 fs2) /\ ((forall e v, interesting e v = []) -> dfs ord2 ret tf fuel = Ok fs1).
  Proof.
    intros Hn Hc. unfold build_features. destruct (negb _); [discriminate|]. destruct (mem_str _ _); [discriminate|]. destruct (generate_all_primitive_options _ _ _ _ _ _) as [G|]; cbn [bind]; [|discriminate].
    match goal with |- bind ?m _ = _ -> _ => destruct m as [s|] eqn:Es end; cbn [bind]; [|discriminate].
    destruct (run_lock variables vtypes interesting rels p_ret p_inputs attr subc eq_prim lower ord1 ord2 ord1_perm ord2_perm A G (depth_limit entities A) no_seeds (Hn G) (fun H => Hc H G) tf fuel (g_target A) [] (depth_limit entities A) (mkSt [] []) (mkSt [] []) s) as (s2 & E2 & _ & _ & [Hl Hq] & _).
    - unfold mdle, lim. rewrite String.eqb_refl. destruct (depth_limit entities A) as [z|]; [exists z; split; [reflexivity | lia] | exact I].
    - left. reflexivity.
    - split; [split; [intros e d' [=] | intros e l w [=]]|]. split; [split; [intros e d' [=] | intros e l w [=]]|]. split; [split; [intros e; exact I | reflexivity] | reflexivity].
    - exact Es.
    - rewrite E2. cbn [bind]. specialize (Hl (g_target A)). destruct (dget String.eqb (g_target A) (s_all s)) as [d1|] eqn:D1; [|discriminate]. intros Hf. split.
      + intros Hm. destruct (dget String.eqb (g_target A) (s_all s2)) as [d2|]; [|contradiction]. eapply finish_perm; [exact Hm | apply Hl | exact Hf].
      + intros Q. rewrite <- (Hq Q (g_target A)), D1. exact Hf.
  Qed.

  (** without a limit on their number, the same features are returned whatever the order *)
  Theorem C74_same_features_partial ret tf fuel fs1 :
    names_differ variables vtypes interesting rels p_ret p_inputs eq_prim A -> case_matters_not variables vtypes interesting rels p_ret p_inputs eq_prim A attr lower ->
    (g_maxf A <= 0)%Z -> dfs ord1 ret tf fuel = Ok fs1 -> exists fs2, dfs ord2 ret tf fuel = Ok fs2 /\ Permutation fs1 fs2.
  Proof.
    intros Hn Hc Hm H. apply (dfs_lock ret tf fuel fs1); [| | exact H | exact Hm].
    - intros G f g Hf Hg. apply Hn; eapply gen_made; eassumption.
    - intros Hp G f g Hf Hg. apply Hc; [exact Hp | |]; eapply gen_made; eassumption.
  Qed.
  (** with no interesting values, the same list of features is returned, limit or not *)
  Theorem C74_same_list_partial ret tf fuel fs1 :
    names_differ variables vtypes interesting rels p_ret p_inputs eq_prim A -> case_matters_not variables vtypes interesting rels p_ret p_inputs eq_prim A attr lower ->
    (forall e v, interesting e v = []) -> dfs ord1 ret tf fuel = Ok fs1 -> dfs ord2 ret tf fuel = Ok fs1.
  Proof.
    intros Hn Hc Hq H. apply (dfs_lock ret tf fuel fs1); [| | exact H | exact Hq].
    - intros G f g Hf Hg. apply Hn; eapply gen_made; eassumption.
    - intros Hp G f g Hf Hg. apply Hc; [exact Hp | |]; eapply gen_made; eassumption.
  Qed.
End Repro.

(** ** the hypotheses are met by the search over customers, sessions and events, with conditional features, sets iterated backwards *)
From Verif Require Import M_Calc S_Calc S_DFSMatrix L_DFSMatrix X_Demo P_Names P_ValueLink P_DFSMatrix.
From Verif Require Import M_Table M_FeatureSet S_Sem M_Names S_Names S_Ordinary S_Value L_Names L_Ordinary L_FeatureSet L_View P_Value.

Section Ordinary.
  Variables (es : entityset) (style_of : prim -> style -> Prop).
  Variables (entities : list string) (variables : string -> list string) (vtypes : string -> string -> option vtyp) (interesting : string -> string -> list val) (iof : string -> option string).
  Variables (p_ret : prim -> option vtyp) (p_inputs : prim -> option (list (list vtyp))) (attr : prim -> pattr) (subc : nat -> nat -> bool) (eq_prim : val -> prim).
  Variables (arity_of : okey -> option nat) (lower : string -> string).
  Variable A : dfs_args.
  Hypothesis Hes : good_es es.
  Hypothesis Hos : ordinary_schema es.
  Hypothesis Hsr : ordinary_search es style_of entities variables vtypes interesting p_ret p_inputs eq_prim A.
  Notation rels := (es_rels es).
  Notation made := (made variables vtypes interesting rels p_ret p_inputs eq_prim A).
  Notation ord := (ordinary rels style_of (S_Sem.index_of es) (fun _ => False)).
  Notation ftype := (ftype p_ret vtypes).
  Notation takes := (takes vtypes p_ret p_inputs).

  Lemma made_one f : made f -> fnout f = 1.
  Proof.
    induction 1 as [e v Hv|b i Hb IH Hn Hi|p m e Hp Hne Ht Hm|p m g e Hp Ht Hm Hg IH Hge|r b Hr Hb IH He Hend|p m path e ce u wh Hp Hne Hpn Hc Ht Hm Hu Hw]; cbn [fnout]; try reflexivity; try exact IH.
    - destruct (sr_declared _ _ _ _ _ _ _ _ _ _ Hsr p) as (ts & sigs & Es & _); [apply in_or_app; left; exact Hp|]. apply (sr_good_trans _ _ _ _ _ _ _ _ _ _ Hsr p ts sigs); [apply in_or_app; left; exact Hp | exact Es].
    - destruct (sr_declared _ _ _ _ _ _ _ _ _ _ Hsr p) as (ts & sigs & Es & _); [apply in_or_app; right; apply in_or_app; left; exact Hp|]. apply (sr_good_trans _ _ _ _ _ _ _ _ _ _ Hsr p ts sigs); [apply in_or_app; right; exact Hp | exact Es].
    - destruct (sr_declared _ _ _ _ _ _ _ _ _ _ Hsr p) as (ts & sigs & Es & _); [apply in_or_app; right; apply in_or_app; right; exact Hp|]. apply (sr_good_agg _ _ _ _ _ _ _ _ _ _ Hsr p ts sigs Hp Es).
  Qed.
  Ltac mcases H := destruct H as [e v Hv|b i Hb Hn Hi|p m e Hp Hne Ht Hm|p m g e Hp Ht Hm Hg Hge|r b Hr Hb He Hend|p m path e ce u wh Hp Hne Hpn Hc Ht Hm Hu Hw].
  Lemma made_index f : made f -> ftype f = YIndex -> exists e, f = FIdent e (S_Sem.index_of es e) None.
  Proof.
    induction 1 as [e v Hv|b i Hb IH Hn Hi|p m e Hp Hne Ht Hm|p m g e Hp Ht Hm Hg IH Hge|r b Hr Hb IH He Hend|p m path e ce u wh Hp Hne Hpn Hc Ht Hm Hu Hw]; intros Hy.
    - cbn [M_Types.ftype] in Hy. destruct (vtypes e v) as [t|] eqn:Et; [|discriminate]. subst t. exists e. rewrite (sr_index _ _ _ _ _ _ _ _ _ _ Hsr e v Et). reflexivity.
    - rewrite (made_one b Hb) in Hn. lia.
    - exfalso. cbn [M_Types.ftype] in Hy. revert Hy. eapply ret_index; [exact Hsr|]. apply in_or_app; left. exact Hp.
    - exfalso. cbn [M_Types.ftype] in Hy. pose proof (sr_returns _ _ _ _ _ _ _ _ _ _ Hsr p) as H. destruct (p_ret p) as [t|]; [apply H; [apply in_or_app; right; apply in_or_app; left; exact Hp | congruence]|]. destruct m; exact (weaken_index _ Hy).
    - exfalso. cbn [M_Types.ftype] in Hy. destruct (IH Hy) as (e & ->). cbn [fentity] in He. subst e. apply Hend. exists None. right. rewrite (parent_index es Hes r Hr). reflexivity.
    - exfalso. cbn [M_Types.ftype] in Hy. revert Hy. eapply ret_index; [exact Hsr|]. do 2 (apply in_or_app; right). exact Hp.
  Qed.
  Lemma made_ordinary f : made f -> ord (fentity f) f.
  Proof.
    revert f. fix IH 2. intros f H. mcases H.
    - cbn [fentity ordinary]. split; [reflexivity|]. destruct (sr_variables _ _ _ _ _ _ _ _ _ _ Hsr e v Hv) as (x & Hx & Hin). destruct (es_get_id es _ x Hx) as [_ He]. apply (proj2 (os_words _ Hos x He) v Hin).
    - rewrite (made_one b Hb) in Hn. lia.
    - assert (fentity (FTrans p m None) = e) as -> by (destruct m as [|b m]; [congruence | cbn [fentity]; apply (Hm b); left; reflexivity]).
      cbn [ordinary]. split; [eapply sr_trans; [exact Hsr | apply in_or_app; left; exact Hp]|]. split; [exact Hne|]. apply fold_ord, Forall_forall. intros d Hd. destruct (Hm d Hd) as (Gd & <-). apply IH. exact Gd.
    - destruct (sr_declared _ _ _ _ _ _ _ _ _ _ Hsr p) as (ts & sigs & Es & Hts); [apply in_or_app; right; apply in_or_app; left; exact Hp|].
      assert (m <> []) as Hmn. { intros ->. destruct (Ht _ _ Es) as (t & Hpm & H2). apply Permutation_sym, Permutation_nil in Hpm. subst t. inversion H2; subst; congruence. }
      assert (fentity (FGroup p m g None) = e) as -> by (destruct m as [|b m]; [congruence | cbn [fentity]; apply (Hm b); left; reflexivity]).
      cbn [ordinary]. split; [eapply sr_trans; [exact Hsr | apply in_or_app; right; exact Hp]|]. split; [exact Hmn|]. split.
      + apply fold_ord, Forall_forall. intros d Hd. destruct (Hm d Hd) as (Gd & <-). apply IH. exact Gd.
      + rewrite <- Hge. apply IH. exact Hg.
    - cbn [fentity ordinary]. split; [exact Hr|]. split; [reflexivity|]. rewrite <- He. apply IH. exact Hb.
    - assert (fentity (FAgg p m path u wh None None) = e) as -> by (destruct path as [|r0 path]; [congruence | apply (chain_first es e (r0 :: path) ce r0 Hc); reflexivity]).
      pose proof (chain_ends rels e path ce Hc) as Hlast. cbn [ordinary]. rewrite Hlast. split; [exact Hpn|]. split; [exact Hc|].
      split; [apply (unique_flag rels (sr_acyclic _ _ _ _ _ _ _ _ _ _ Hsr)); [exact (sr_once _ _ _ _ _ _ _ _ _ _ Hsr) | exact Hu | exact Hpn | exact Hc]|].
      split; [|split; [|exact I]].
      + destruct (sr_aggs _ _ _ _ _ _ _ _ _ _ Hsr p Hp) as [Ha|(Hcount & sigs & Es)].
        * left. split; [exact Ha|]. split; [exact Hne|]. apply fold_ord, Forall_forall. intros d Hd. destruct (Hm d Hd) as (Gd & <-). apply IH. exact Gd.
        * right. split; [exact Hcount|]. destruct (Ht _ _ Es) as (t & Hpm & H2). inversion H2 as [|x y t' l' Hxy H2']; subst. inversion H2'; subst. apply Permutation_length_1_inv in Hpm. subst m.
          apply sub_index in Hxy. destruct (Hm x (or_introl eq_refl)) as (Gx & Ex). destruct (made_index x Gx Hxy) as (e' & ->). cbn [fentity] in Ex. subst e'. reflexivity.
      + destruct wh as [w|]; [|exact I]. right. destruct (Hw w eq_refl) as (v & x & Hv & Hx & ->). split; [apply (proj1 (sr_eq _ _ _ _ _ _ _ _ _ _ Hsr _ _ x Hx))|]. cbn [ordinary]. split; [reflexivity|].
        destruct (sr_variables _ _ _ _ _ _ _ _ _ _ Hsr ce v Hv) as (y & Hy & Hin). destruct (es_get_id es _ y Hy) as [_ He]. apply (proj2 (os_words _ Hos y He) v Hin).
  Qed.
  Lemma made_names : names_differ variables vtypes interesting rels p_ret p_inputs eq_prim A.
  Proof.
    intros f g Hf Hg Ee En. apply (C50_names_partial rels style_of (S_Sem.index_of es) (fun _ => False)) with (e := fentity f); [exact (sr_styled _ _ _ _ _ _ _ _ _ _ Hsr) | exact (os_plain _ Hos) | constructor; intros; contradiction | apply made_ordinary; exact Hf | rewrite Ee; apply made_ordinary; exact Hg | exact En].
  Qed.
  (** names differ in an ordinary search (C73); with no commutative primitive, or with names that differ also when in lower
      case, the order of sets does not matter *)
  Theorem C74_ordinary_partial ord1 ord2 ret tf fuel fs1 : (forall l, Permutation (ord1 l) l) -> (forall l, Permutation (ord2 l) l) ->
    (forall p, In p (g_trans A ++ g_groups A ++ g_aggs A) -> a_comm (attr p) = false) -> (g_maxf A <= 0)%Z ->
    build_features entities variables vtypes interesting iof rels p_ret p_inputs attr subc eq_prim arity_of lower ord1 A ret tf fuel = Ok fs1 ->
    exists fs2, build_features entities variables vtypes interesting iof rels p_ret p_inputs attr subc eq_prim arity_of lower ord2 A ret tf fuel = Ok fs2 /\ Permutation fs1 fs2.
  Proof.
    intros H1 H2 Hc Hm. apply C74_same_features_partial; try assumption; [exact (sr_seeds _ _ _ _ _ _ _ _ _ _ Hsr) | exact made_names|]. intros (p & Hp & E). rewrite (Hc p Hp) in E. discriminate.
  Qed.
End Ordinary.

Notation d_run interesting eq o A := (build_features ["cust"; "sess"; "event"] m_variables m_vtypes interesting (fun _ => Some "id") demo_rels m_ret m_inputs m_attr Nat.eqb eq (fun _ => Some 1) M_Time.lower o A None 4 6).
Lemma demo_quiet : ordinary_search (demo_es []) demo_style ["cust"; "sess"; "event"] m_variables m_vtypes (fun _ _ => []) m_ret m_inputs (fun _ => EqOne) m_args.
Proof. destruct demo_search. constructor; try assumption; intros e v x []. Qed.
Example C74_nonvacuous :
  good_es (demo_es []) /\ ordinary_schema (demo_es []) /\
  ordinary_search (demo_es []) demo_style ["cust"; "sess"; "event"] m_variables m_vtypes m_interesting m_ret m_inputs (fun _ => EqOne) m_args /\
  (forall p, In p (g_trans m_args ++ g_groups m_args ++ g_aggs m_args) -> a_comm (m_attr p) = false) /\
  names_differ m_variables m_vtypes m_interesting demo_rels m_ret m_inputs (fun _ => EqOne) m_args /\ names_differ m_variables m_vtypes (fun _ _ => []) demo_rels m_ret m_inputs (fun _ => EqOne) m_args /\
  (g_maxf m_args <= 0)%Z /\ (exists fs, d_run m_interesting (fun _ => EqOne) (@rev feat) m_args = Ok fs /\ List.length fs = 11) /\ (exists fs, d_run (fun _ _ => []) (fun _ => EqOne) (@rev feat) m_args = Ok fs /\ List.length fs = 10).
Proof.
  destruct (demo_request (fun l => l) (fun l => Permutation_refl l)) as [H1 _ _ _ _ _ _ _].
  split; [exact H1|]. split; [exact demo_ordinary_schema|]. split; [exact demo_search|]. split; [intros p Hp; cbn in Hp; in_cases Hp; reflexivity|].
  split; [exact (made_names (demo_es []) demo_style _ _ _ _ _ _ _ _ H1 demo_ordinary_schema demo_search)|]. split; [exact (made_names (demo_es []) demo_style _ _ _ _ _ _ _ _ H1 demo_ordinary_schema demo_quiet)|]. split; [cbn; lia|].
  split.
  - destruct (d_run m_interesting (fun _ => EqOne) (@rev feat) m_args) as [fs|] eqn:E; [|vm_compute in E; discriminate E]. exists fs. split; [reflexivity|]. vm_compute in E. injection E as <-. reflexivity.
  - destruct (d_run (fun _ _ => []) (fun _ => EqOne) (@rev feat) m_args) as [fs|] eqn:E; [|vm_compute in E; discriminate E]. exists fs. split; [reflexivity|]. vm_compute in E. injection E as <-. reflexivity.
Qed.

(** ** with a limit on their number, which conditional features are returned depends on the order of a set *)
Definition w_eq (v : val) : prim := match v with VNum 1 => EqualScalar v "1" | _ => EqualScalar v "2" end.
Definition w_interesting (e v : string) : list val := if String.eqb v "dev" then [VNum 1; VNum 2] else [].
Definition w_args (k : Z) : dfs_args := mkArgs "cust" [Count] [] [Count] [] 2 k [] [] [] [] [] [] [] 1.
Theorem C74_conditions_refuted : exists fs gs,
  d_run w_interesting w_eq (fun l => l) (w_args 4) = Ok fs /\ d_run w_interesting w_eq (@rev feat) (w_args 4) = Ok gs /\
  map (fname demo_rels) fs = ["age"; "COUNT(sess)"; "COUNT(event)"; "COUNT(sess WHERE dev = 1)"] /\
  map (fname demo_rels) gs = ["age"; "COUNT(sess)"; "COUNT(event)"; "COUNT(sess WHERE dev = 2)"].
Proof.
  destruct (d_run w_interesting w_eq (fun l => l) (w_args 4)) as [fs|] eqn:E; [|vm_compute in E; discriminate E]. destruct (d_run w_interesting w_eq (@rev feat) (w_args 4)) as [gs|] eqn:F; [|vm_compute in F; discriminate F].
  exists fs, gs. vm_compute in E, F. injection E as <-. injection F as <-. split; [reflexivity|]. split; [reflexivity|]. split; vm_compute; reflexivity.
Qed.
(** ** variables whose names differ only in case: which of two names a commutative feature gets depends on the order of a set *)
Notation c_run o := (build_features ["t"] (fun _ => ["id"; "a"; "A"]) (fun _ v => if String.eqb v "id" then Some YIndex else Some YNumeric) (fun _ _ => []) (fun _ => Some "id") [] (fun _ => Some YNumeric) (fun _ => Some [[YNumeric; YNumeric]])
    (fun _ => mkPa "add_numeric" 1 1 false true None None None None None) Nat.eqb w_eq (fun _ => Some 1) M_Time.lower o (mkArgs "t" [] [AddNumeric] [] [] 1 (-1) [] [] [] [] [] [] [] 1) None 4 6).
Theorem C74_case_refuted : exists fs gs, c_run (fun l => l) = Ok fs /\ c_run (@rev feat) = Ok gs /\
  map (fname []) fs = ["a"; "A"; "a + A"] /\ map (fname []) gs = ["a"; "A"; "A + a"].
Proof.
  destruct (c_run (fun l => l)) as [fs|] eqn:E; [|vm_compute in E; discriminate E]. destruct (c_run (@rev feat)) as [gs|] eqn:F; [|vm_compute in F; discriminate F].
  exists fs, gs. vm_compute in E, F. injection E as <-. injection F as <-. split; [reflexivity|]. split; [reflexivity|]. split; vm_compute; reflexivity.
Qed.

Print Assumptions C74_same_features_partial.
Print Assumptions C74_same_list_partial.
Print Assumptions C74_ordinary_partial.
Print Assumptions C74_conditions_refuted.
Print Assumptions C74_case_refuted.
