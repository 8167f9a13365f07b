(** C68: concrete runs and counterexamples. *)
From Coq Require Import Permutation.
From Verif Require Import Base BaseFacts M_Schema M_Feature M_Types M_Serialize M_Match M_DFS S_Schema S_Calc S_Match S_Depth S_DFS S_DFSAll L_Schema L_FeatureSet L_Names P_Depth P_Match L_DFS P_DFS P_DFSCase L_DFSAll P_DFSAll.
Local Open Scope string_scope.
Local Open Scope list_scope.

(** ** Sessions of customers of regions *)
Definition g_schema := [("sessions", [("id", YIndex); ("cid", YId); ("x", YNumeric)]); ("customers", [("id", YIndex); ("rid", YId); ("age", YNumeric)]); ("regions", [("id", YIndex); ("area", YNumeric)])].
Definition g_rels := [mkRel "customers" "id" "sessions" "cid"; mkRel "regions" "id" "customers" "rid"].
Definition g_entities := ["sessions"; "customers"; "regions"].
Definition g_run A ret := w_dfs g_entities (w_vars g_schema) (w_types g_schema) (fun _ _ => []) g_rels A ret 4 6.
Definition g_case target depth : dfs_args := mkArgs target [w_sum] [w_abs] [] [w_abs] depth (-1) [] [] [] [] [] [] [] 1.
Definition g_x : feat := FIdent "sessions" "x" None.
Definition g_cid : feat := FIdent "sessions" "cid" None.
Definition g_rid : feat := FDirect (mkRel "customers" "id" "sessions" "cid") (FIdent "customers" "rid" None) None.
Definition g_age : feat := FDirect (mkRel "customers" "id" "sessions" "cid") (FIdent "customers" "age" None) None.

Lemma w_perm l : Permutation (w_ord l) l.
Proof. apply Permutation_refl. Qed.
Lemma contains_pre c a s : contains c s -> contains c (a ++ s)%string.
Proof. intros (x & y & ->). exists (a ++ x)%string, y. rewrite sapp_assoc. reflexivity. Qed.
Lemma contains_post c a s : contains c s -> contains c (s ++ a)%string.
Proof. intros (x & y & ->). exists x, (y ++ a)%string. rewrite !sapp_assoc. reflexivity. Qed.
Lemma suffix_bracket g i : contains "[" (index_suffix g i).
Proof. unfold index_suffix. eexists g, _. reflexivity. Qed.
(** names of outputs have a bracket *)
Lemma output_bracket rels : forall b i, 1 < fnout b -> i < fnout b -> contains "[" (nth i (fnames rels b) "").
Proof.
  intros b i Hb Hi. assert (List.length (fnames rels b) = fnout b /\ forall s, In s (fnames rels b) -> contains "[" s) as [Hl H]; [|apply H, nth_In; lia]. clear i Hi.
  assert (forall n name gen gens, 1 < n -> List.length gens = n -> (forall s, In s gens -> contains "[" s) -> List.length (if Nat.eqb n 1 then [name] else if String.eqb name gen then gens else map (index_suffix name) (seq 0 (List.length gens))) = n /\
    forall s, In s (if Nat.eqb n 1 then [name] else if String.eqb name gen then gens else map (index_suffix name) (seq 0 (List.length gens))) -> contains "[" s) as X.
  { intros n name gen gens Hn Hl Hg. destruct (Nat.eqb_spec n 1) as [->|_]; [lia|]. destruct (String.eqb name gen); [auto|]. split; [rewrite map_length, seq_length; exact Hl|]. intros s Hs. apply in_map_iff in Hs as (k & <- & _). apply suffix_bracket. }
  assert (forall g n s, In s (map (index_suffix g) (seq 0 n)) -> contains "[" s) as Y by (intros g n s Hs; apply in_map_iff in Hs as (k & <- & _); apply suffix_bracket).
  revert Hb. induction b as [e v nm|r b nm IH|p bs path u wh prev nm _ _|p bs nm _|p bs g nm _ _|b n nm _] using list_feat_ind; intros Hb; unfold fnames; cbn [fnaming fst snd fnout] in *; try lia.
  - destruct (IH Hb) as [H1 H2]. apply X; [exact Hb | rewrite map_length; exact H1|]. intros s Hs. apply in_map_iff in Hs as (t & <- & Ht). apply contains_pre, contains_pre, H2. exact Ht.
  - apply X; [exact Hb | rewrite map_length, seq_length; reflexivity | apply Y].
  - apply X; [exact Hb | rewrite map_length, seq_length; reflexivity | apply Y].
  - apply X; [exact Hb | rewrite map_length, seq_length; reflexivity|]. intros s Hs. apply in_map_iff in Hs as (k & <- & _). apply contains_post, suffix_bracket.
Qed.
Theorem C68_plain_name rels v : ~ contains "[" v -> ~ output_name rels v.
Proof. intros H (b & i & H1 & H2 & <-). apply H. apply output_bracket; assumption. Qed.

(** ** What the run builds *)
Example C68_run : deepest g_rels (g_run (unfiltered (g_case "sessions" 2)) None) = Ok
  [("cid", Ok 0); ("x", Ok 0); ("ABSOLUTE(x)", Ok 1); ("ABSOLUTE(x) by cid", Ok 1); ("customers.rid", Ok 1); ("customers.age", Ok 1); ("customers.SUM(sessions.x)", Ok 2); ("customers.ABSOLUTE(age)", Ok 2);
   ("customers.ABSOLUTE(age) by rid", Ok 2); ("customers.regions.area", Ok 2); ("ABSOLUTE(customers.age) by cid", Ok 2); ("ABSOLUTE(customers.age) by customers.rid", Ok 2)].
Proof. vm_compute. reflexivity. Qed.
Definition g_up (f : feat) : feat := FDirect (mkRel "customers" "id" "sessions" "cid") f None.
Definition g_cage : feat := FIdent "customers" "age" None.
Definition g_fs : list feat :=
  [g_cid; g_x; FTrans w_abs [g_x] None; FGroup w_abs [g_x] g_cid None; g_rid; g_age; g_up (FAgg w_sum [g_x] [mkRel "customers" "id" "sessions" "cid"] true None None None); g_up (FTrans w_abs [g_cage] None);
   g_up (FGroup w_abs [g_cage] (FIdent "customers" "rid" None) None); g_up (FDirect (mkRel "regions" "id" "customers" "rid") (FIdent "regions" "area" None) None); FGroup w_abs [g_age] g_cid None; FGroup w_abs [g_age] g_rid None].
Lemma g_ok : g_run (unfiltered (g_case "sessions" 2)) None = Ok g_fs.
Proof. vm_compute. reflexivity. Qed.
Ltac find_in := unfold g_fs; cbn [In]; repeat (first [left; reflexivity | right]).
Lemma g_outputs : flat_map outputs g_fs = g_fs.
Proof. reflexivity. Qed.
Lemma unique_name {V} (h : V -> string) l f g : NoDup (map h l) -> In f l -> In g l -> h f = h g -> f = g.
Proof.
  induction l as [|a l IH]; cbn [map]; intros Hn Hf Hg E; [destruct Hf|]. inversion Hn as [|? ? H1 H2]; subst. destruct Hf as [->|Hf], Hg as [->|Hg]; [reflexivity | | | apply IH; assumption]; exfalso; apply H1; [rewrite E | rewrite <- E]; apply in_map; assumption.
Qed.
Lemma g_apart : named_apart g_rels (named (fun _ => Some "id") (g_case "sessions" 2) g_fs).
Proof.
  assert (NoDup (map (fname g_rels) (FIdent "sessions" "id" None :: g_fs))) as Hn. { replace (map (fname g_rels) (FIdent "sessions" "id" None :: g_fs)) with ["id"; "cid"; "x"; "ABSOLUTE(x)"; "ABSOLUTE(x) by cid"; "customers.rid"; "customers.age"; "customers.SUM(sessions.x)"; "customers.ABSOLUTE(age)"; "customers.ABSOLUTE(age) by rid"; "customers.regions.area"; "ABSOLUTE(customers.age) by cid"; "ABSOLUTE(customers.age) by customers.rid"] by (vm_compute; reflexivity).
    repeat (constructor; [cbn [In]; intuition discriminate|]). constructor. }
  assert (forall f, In f (named (fun _ => Some "id") (g_case "sessions" 2) g_fs) -> In f (FIdent "sessions" "id" None :: g_fs)) as X. { intros f Hf. unfold named in Hf. rewrite g_outputs in Hf. cbn [g_target g_case app] in Hf. destruct Hf as [<-|Hf]; [left; reflexivity|]. right. apply in_app_or in Hf as [H|H]; exact H. }
  intros f g Hf Hg E. eapply unique_name; [exact Hn | apply X; exact Hf | apply X; exact Hg | exact E].
Qed.
Lemma g_transforms : transforms_transform w_attr (g_case "sessions" 2).
Proof. intros q [<-|[<-|[]]]; reflexivity. Qed.
Lemma g_force p : exists os, in_force w_attr (fun _ => Some 1) (g_case "sessions" 2) p os.
Proof. eexists. eexists. split; reflexivity. Qed.
Lemma g_nothing f : uses_nothing_ignored g_rels (g_case "sessions" 2) f.
Proof. intros d _. split; [intros [] | intros e v nm vs _ []]. Qed.
Lemma not_in_list (v : string) l : existsb (String.eqb v) l = false -> ~ In v l.
Proof. intros H X. assert (existsb (String.eqb v) l = true) by (apply existsb_exists; exists v; split; [exact X | apply String.eqb_refl]). congruence. Qed.
Lemma no_bracket v : substr "[" v = false -> ~ contains "[" v.
Proof. intros H X. apply substr_spec in X. congruence. Qed.

(** the theorems apply to it *)
Example C68_nonvacuous :
  In g_x g_fs /\ In g_cid g_fs /\
  (exists m', reordered false [g_x] m' /\ present g_rels g_fs (FTrans w_abs m' None)) /\
  (exists m', reordered false [g_age] m' /\ present g_rels g_fs (FGroup w_abs m' g_rid None)) /\
  present g_rels g_fs g_age.
Proof.
  pose proof g_ok as H. unfold g_run, w_dfs in H. split; [|split; [|split; [|split]]].
  - eapply (C68_columns _ _ _ _ _ _ _ _ _ _ _ _ _ _ w_perm (g_case "sessions" 2) _ _ _ "x" eq_refl H); [vm_compute; tauto | intros [] | discriminate].
  - eapply (C68_columns _ _ _ _ _ _ _ _ _ _ _ _ _ _ w_perm (g_case "sessions" 2) _ _ _ "cid" eq_refl H); [vm_compute; tauto | intros [] | discriminate].
  - destruct (g_force w_abs) as (os & Hos). destruct (C68_no_options g_rels _ _ (g_case "sessions" 2) _ _ eq_refl (or_introl eq_refl) Hos) as (J1 & J2 & _).
    eapply (C68_transforms _ _ _ _ _ _ _ _ _ _ _ _ _ _ w_perm (g_case "sessions" 2) _ _ _ w_abs os [YNumeric] [] [g_x] eq_refl H g_apart g_transforms); [left; reflexivity | reflexivity | | | | | exact Hos | apply J1; intros [] | apply J2; intros; apply g_nothing |].
    + split; [intros y [<-|[]]; rewrite g_outputs; find_in|]. split; [repeat constructor; intros [] | repeat constructor].
    + intros b [<-|[]] n Hn. vm_compute in Hn. injection Hn as <-. split; [right; reflexivity | discriminate].
    + intros b [<-|[]]. split; [reflexivity|]. split; [intros (q & [=] & _) | intros r b' nm [=]].
    + intros (b & [<-|[]] & [=]).
    + intros m' [=].
  - destruct (g_force w_abs) as (os & Hos). destruct (C68_no_options g_rels _ _ (g_case "sessions" 2) _ _ eq_refl (or_introl eq_refl) Hos) as (J1 & J2 & J3).
    eapply (C68_groupbys_partial _ _ _ _ _ _ _ _ _ _ _ _ _ _ w_perm (g_case "sessions" 2) _ _ _ w_abs os [YNumeric] [] [g_age] g_rid eq_refl H g_apart g_transforms); [left; reflexivity | reflexivity | | rewrite g_outputs; find_in | | | | | exact Hos | apply J1; intros [] | apply J2; intros; apply g_nothing | reflexivity | right; reflexivity | apply J3 |].
    + split; [intros y [<-|[]]; rewrite g_outputs; find_in|]. split; [repeat constructor; intros [] | repeat constructor].
    + intros b [<-|[<-|[]]] n Hn; vm_compute in Hn; injection Hn as <-; (split; [right; reflexivity | discriminate]).
    + intros b [<-|[]]. split; [reflexivity|]. split; [intros (q & [=] & _) | intros r b' nm [= _ <- _] (q & [=] & _)].
    + intros (q & [=] & _).
    + left. exists g_age. split; [left; reflexivity | reflexivity].
    + intros m' [=].
  - eapply (C68_parents _ _ _ _ _ _ _ _ _ _ _ _ _ _ w_perm (g_case "sessions" 2) _ _ _ (mkRel "customers" "id" "sessions" "cid") "age" eq_refl H); [reflexivity | right; vm_compute; discriminate | left; reflexivity | reflexivity | intros [] | vm_compute; tauto | intros [] | intros (nm & [[=]|[=]]) | apply C68_plain_name, no_bracket; reflexivity | discriminate].
Qed.
(** ... two steps down, with no limit on depth *)
Example C68_children_nonvacuous : exists fs, g_run (unfiltered (g_case "regions" (-1))) None = Ok fs /\
  exists m' u, reordered false [g_x] m' /\ present g_rels fs (FAgg w_sum m' [mkRel "regions" "id" "customers" "rid"; mkRel "customers" "id" "sessions" "cid"] u None None None).
Proof.
  destruct (g_run (unfiltered (g_case "regions" (-1))) None) as [fs|] eqn:H; [|vm_compute in H; discriminate]. exists fs. split; [reflexivity|]. unfold g_run, w_dfs in H.
  assert (exists os, in_force w_attr (fun _ => Some 1) (g_case "regions" (-1)) w_sum os) as (os & Hos) by (eexists; eexists; split; reflexivity). destruct (C68_no_options g_rels _ _ (g_case "regions" (-1)) _ _ eq_refl (or_intror (or_introl eq_refl)) Hos) as (J1 & J2 & _).
  eapply (C68_children_partial _ _ _ _ _ _ _ _ _ _ _ _ _ _ w_perm (g_case "regions" (-1)) _ _ _ w_sum os [YNumeric] [] _ "sessions" ["x"] eq_refl H); [reflexivity | left; reflexivity | reflexivity | | discriminate | | left; split; [reflexivity | discriminate] | repeat constructor; intros [] | | repeat constructor | | exact Hos | apply J1; intros [] | apply J2; intros f _ d _; split; [intros [] | intros e v nm vs _ []] |].
  - apply (chain_cons r_pe r_ce g_rels (mkRel "regions" "id" "customers" "rid")); [right; left; reflexivity|]. apply (chain_cons r_pe r_ce g_rels (mkRel "customers" "id" "sessions" "cid")); [left; reflexivity|]. apply chain_nil.
  - intros r _ [].
  - intros v [<-|[]]. split; [vm_compute; tauto|]. split; [intros []|]. split; [apply C68_plain_name, no_bracket; reflexivity|]. intros r [<-|[<-|[]]] (nm & [[=]|[=]]).
  - intros b [<-|[]]. split; [cbn; lia|]. split; [discriminate|]. split; discriminate.
  - intros m' u [=].
Qed.

(** ** When only the grouping feature is a parent's value, the groupby feature is never built *)
Theorem C68_groupby_direct_refuted : exists p g x, In p (g_groups (g_case "sessions" 2)) /\ In x g_fs /\ In g g_fs /\ is_direct g = true /\ issub (ftype w_ret (w_types g_schema) g) YId = true /\ issub (ftype w_ret (w_types g_schema) x) YNumeric = true /\ w_inputs p = Some [[YNumeric]] /\
  g_run (unfiltered (g_case "sessions" 2)) None = Ok g_fs /\ room g_rels g_entities (g_case "sessions" 2) g /\ room g_rels g_entities (g_case "sessions" 2) x /\
  (exists y, is_direct y = true /\ In (FGroup p [y] g None) g_fs) /\ ~ present g_rels g_fs (FGroup p [x] g None).
Proof.
  exists w_abs, g_rid, g_x. split; [left; reflexivity|]. split; [find_in|]. split; [find_in|]. do 4 (split; [reflexivity|]). split; [exact g_ok|]. split; [|split; [|split]].
  - intros n Hn; vm_compute in Hn; injection Hn as <-; (split; [right; reflexivity | discriminate]).
  - intros n Hn; vm_compute in Hn; injection Hn as <-; (split; [right; reflexivity | discriminate]).
  - exists g_age. split; [reflexivity | find_in].
  - intros (f' & Hin & E). unfold g_fs in Hin. cbn [In] in Hin. repeat (destruct Hin as [<-|Hin]; [vm_compute in E; discriminate|]). destruct Hin.
Qed.

(** ** Raising max_depth loses features: an entity is visited once, with the depth left at the first visit *)
Definition x_schema := [("t", [("id", YIndex)]); ("a", [("id", YIndex); ("tid", YId)]); ("b", [("id", YIndex); ("aid", YId)]); ("x", [("id", YIndex); ("tid", YId); ("bid", YId); ("v", YNumeric)])].
Definition x_rels := [mkRel "t" "id" "a" "tid"; mkRel "t" "id" "x" "tid"; mkRel "a" "id" "b" "aid"; mkRel "b" "id" "x" "bid"].
Definition x_case depth := w_args "t" [w_sum] [w_abs] [] depth [] [] [].
Definition x_run d := w_dfs ["t"; "a"; "b"; "x"] (w_vars x_schema) (w_types x_schema) (fun _ _ => []) x_rels (x_case d) None 5 6.
Theorem C68_depth_refuted : exists fs2 fs3 f, x_run 2 = Ok fs2 /\ x_run 3 = Ok fs3 /\ In f fs2 /\ get_depth x_rels None f = Ok 2 /\ ~ present x_rels fs3 f.
Proof.
  destruct (x_run 2) as [fs2|] eqn:E2; [|vm_compute in E2; discriminate]. destruct (x_run 3) as [fs3|] eqn:E3; [|vm_compute in E3; discriminate].
  exists fs2, fs3, (FAgg w_sum [FTrans w_abs [FIdent "x" "v" None] None] [mkRel "t" "id" "x" "tid"] false None None None). split; [reflexivity|]. split; [reflexivity|]. split; [vm_compute in E2; injection E2 as <-; cbn [In]; repeat (first [left; reflexivity | right])|]. split; [reflexivity|].
  intros (f' & Hin & E). vm_compute in E3. injection E3 as <-. cbn [In] in Hin. repeat (destruct Hin as [<-|Hin]; [vm_compute in E; discriminate|]). destruct Hin.
Qed.
Print Assumptions C68_plain_name.
Print Assumptions C68_groupby_direct_refuted.
Print Assumptions C68_depth_refuted.
