(** C25, C27, C29, C31: concrete runs of deep feature synthesis, and counterexamples. *)
From Coq Require Import Permutation Sorted.
From Verif Require Import Base BaseFacts M_Schema M_Feature M_Types M_Serialize M_Match M_DFS S_Schema S_Calc S_Match S_Depth S_DFS L_Schema P_Depth L_DFS P_DFS.
Local Open Scope string_scope.
Local Open Scope list_scope.

(** ** A small world *)
Definition w_gen (n : string) (bs : list string) : string := (n ++ "(" ++ String.concat ", " bs ++ ")")%string.
Definition w_agg (n : string) (bs : list string) (pn e wh pr : string) : string :=
  (n ++ "(" ++ String.concat ", " (map (fun b => pn ++ "." ++ b)%string bs) ++ wh ++ pr ++ ")")%string.
Definition w_sum : prim := mkPrim "Sum" 1 false false (VNum 0) false (w_gen "SUM") (w_agg "SUM") (fun _ _ => []) (fun _ _ => []).
Definition w_abs : prim := mkPrim "Absolute" 1 false false VNull false (w_gen "ABSOLUTE") (w_agg "ABSOLUTE") (fun _ cs => cs) (fun _ _ => []).
Definition w_two : prim := mkPrim "Two" 2 false false VNull false (w_gen "TWO") (w_agg "TWO") (fun _ cs => cs ++ cs) (fun _ _ => []).
Definition w_eq (v : val) : prim := mkPrim (match v with VNum 1 => "eq1" | _ => "eq" end) 1 false false VNull false
  (fun bs => (String.concat "" bs ++ " = " ++ match v with VNum 1 => "1" | _ => "0" end)%string) (w_agg "EQ") (fun _ cs => cs) (fun _ _ => []).
Definition w_ret (p : prim) : option vtyp := if substr "eq" (p_name p) then Some YBoolean else Some YNumeric.
Definition w_inputs (p : prim) : option (list (list vtyp)) := if substr "eq" (p_name p) then Some [[YVariable]] else Some [[YNumeric]].
Definition w_attr (p : prim) : pattr :=
  if String.eqb (p_name p) "Sum" then mkPa "sum" 1 1 true false None None None None None
  else if String.eqb (p_name p) "Absolute" then mkPa "absolute" 2 2 false false None None None None None
  else if String.eqb (p_name p) "Two" then mkPa "two" 3 3 false false None None None None None
  else mkPa "equal" 4 4 false false None None None None None.
Definition w_lower (s : string) : string := s.
Definition w_ord (l : list feat) : list feat := l.
Definition w_dfs entities variables vtypes interesting rels :=
  build_features entities variables vtypes interesting (fun _ => Some "id") rels w_ret w_inputs w_attr Nat.eqb w_eq (fun _ => Some 1) w_lower w_ord.
Definition w_vars (l : list (string * list (string * vtyp))) (e : string) : list string := map fst (match dget String.eqb e l with Some d => d | None => [] end).
Definition w_types (l : list (string * list (string * vtyp))) (e v : string) : option vtyp := match dget String.eqb e l with Some d => dget String.eqb v d | None => None end.
Definition w_args target aggs trans wheres depth ign_e ign_v opts : dfs_args :=
  mkArgs target aggs trans wheres [] depth (-1) [] ign_e ign_v opts [] [] [] 1.
Definition deepest (rels : list relationship) (r : res (list feat)) : res (list (string * res nat)) :=
  do fs <- r; Ok (map (fun f => (fname rels f, get_depth rels None f)) fs).

(** customers, sessions and devices: a child and a parent *)
Definition d_schema := [("sessions", [("id", YIndex); ("cid", YId); ("dev", YId); ("k", YCategorical); ("x", YNumeric)]); ("customers", [("id", YIndex); ("age", YNumeric)]); ("devices", [("id", YIndex); ("price", YNumeric)])].
Definition d_rels := [mkRel "customers" "id" "sessions" "cid"; mkRel "devices" "id" "sessions" "dev"].
Definition d_int (e v : string) : list val := if String.eqb v "k" then [VNum 1; VNum 2] else [].
Definition d_run A ret := w_dfs ["sessions"; "customers"; "devices"] (w_vars d_schema) (w_types d_schema) d_int d_rels A ret 4 6.
Definition d_args d := w_args "customers" [w_sum] [w_abs] [w_sum] d [] [] [].

(** what the run is about *)
Example C26_nonvacuous : deepest d_rels (d_run (d_args 2) (Some default_types)) = Ok
  [("age", Ok 0); ("SUM(sessions.x)", Ok 1); ("ABSOLUTE(age)", Ok 1); ("SUM(sessions.ABSOLUTE(x))", Ok 2); ("SUM(sessions.ABSOLUTE(x) WHERE k = 1)", Ok 2);
   ("SUM(sessions.ABSOLUTE(x) WHERE k = 0)", Ok 2); ("SUM(sessions.devices.price)", Ok 2); ("SUM(sessions.devices.price WHERE k = 1)", Ok 2);
   ("SUM(sessions.devices.price WHERE k = 0)", Ok 2); ("SUM(sessions.x WHERE k = 1)", Ok 2); ("SUM(sessions.x WHERE k = 0)", Ok 2); ("ABSOLUTE(SUM(sessions.x))", Ok 2)].
Proof. vm_compute. reflexivity. Qed.
(** two names dropped, at most three features *)
Example C28_nonvacuous :
  deepest d_rels (d_run (mkArgs "customers" [w_sum] [w_abs] [] [] 2 3 [] [] [] [] [] ["(x"] ["age"] 1) None) = Ok [("SUM(sessions.x)", Ok 1); ("ABSOLUTE(age)", Ok 1); ("SUM(sessions.devices.price)", Ok 2)] /\
  deepest d_rels (d_run (unfiltered (mkArgs "customers" [w_sum] [w_abs] [] [] 2 3 [] [] [] [] [] ["(x"] ["age"] 1)) None) = Ok
   [("age", Ok 0); ("SUM(sessions.x)", Ok 1); ("ABSOLUTE(age)", Ok 1); ("SUM(sessions.ABSOLUTE(x))", Ok 2); ("SUM(sessions.devices.price)", Ok 2); ("ABSOLUTE(SUM(sessions.x))", Ok 2)].
Proof. split; vm_compute; reflexivity. Qed.
(** ignoring the devices and the ages leaves the sessions; an option for Sum brings the ages of customers back *)
Example C27_nonvacuous :
  deepest d_rels (d_run (w_args "customers" [w_sum] [w_abs] [] 2 ["devices"] [("customers", ["age"])] []) None) = Ok [("SUM(sessions.x)", Ok 1); ("SUM(sessions.ABSOLUTE(x))", Ok 2); ("ABSOLUTE(SUM(sessions.x))", Ok 2)] /\
  deepest d_rels (d_run (w_args "customers" [w_sum] [w_abs] [] 1 [] [("customers", ["age"])] [([KName "absolute"], inl (mkPo None [] (Some [("customers", ["age"])]) [] None None None None))]) None) =
    Ok [("age", Ok 0); ("SUM(sessions.x)", Ok 1); ("ABSOLUTE(age)", Ok 1)].
Proof. split; vm_compute; reflexivity. Qed.

(** with seed features the limit counts from the seeds: SUM(sessions.ABSOLUTE(ABSOLUTE(x))) has depth 3, and depth 1 over the seed *)
Definition d_seed : feat := FTrans w_abs [FTrans w_abs [FIdent "sessions" "x" None] None] None.
Example C25_seeds_nonvacuous : exists fs, d_run (mkArgs "customers" [w_sum] [] [] [] 1 (-1) [] [] [] [] [d_seed] [] [] 1) None = Ok fs /\
  map (fun f => (fname d_rels f, get_depth d_rels None f, get_depth d_rels (Some (map (funique d_rels) [d_seed])) f)) fs =
    [("age", Ok 0, Ok 0); ("SUM(sessions.x)", Ok 1, Ok 1); ("SUM(sessions.ABSOLUTE(ABSOLUTE(x)))", Ok 3, Ok 1)].
Proof. eexists. split; vm_compute; reflexivity. Qed.

(** ** C25 as stated is false *)
Definition too_deep (rels : list relationship) (d : Z) (r : res (list feat)) : Prop :=
  exists fs f n, r = Ok fs /\ In f fs /\ get_depth rels None f = Ok n /\ (d < Z.of_nat n)%Z.
Definition too_deepb (rels : list relationship) (d : Z) (r : res (list feat)) : bool :=
  match r with Ok fs => existsb (fun f => match get_depth rels None f with Ok n => Z.ltb d (Z.of_nat n) | Err _ => false end) fs | Err _ => false end.
Lemma too_deep_check rels d r : too_deepb rels d r = true -> too_deep rels d r.
Proof.
  unfold too_deepb. destruct r as [fs|]; [|discriminate]. intros H. apply existsb_exists in H as (f & Hf & H). destruct (get_depth rels None f) as [n|] eqn:E; [|discriminate]. apply Z.ltb_lt in H. exists fs, f, n. auto.
Qed.
(** a where clause: SUM(sessions.x WHERE k = 1) at max_depth=1 *)
Theorem C25_condition_refuted : exists A, g_seeds A = [] /\ g_depth A = 1%Z /\ too_deep d_rels 1 (d_run A None).
Proof. exists (d_args 1). split; [reflexivity|]. split; [reflexivity|]. apply too_deep_check. vm_compute. reflexivity. Qed.
(** no primitives at all: t -> f, t -> e -> f; f is visited from t first, so e.f.x is there when t looks at e at max_depth=1 *)
Definition t_schema := [("t", [("id", YIndex); ("fid", YId); ("eid", YId)]); ("e", [("id", YIndex); ("fid", YId)]); ("f", [("id", YIndex); ("x", YNumeric)])].
Definition t_rels := [mkRel "f" "id" "t" "fid"; mkRel "e" "id" "t" "eid"; mkRel "f" "id" "e" "fid"].
Definition t_run A ret := w_dfs ["t"; "e"; "f"] (w_vars t_schema) (w_types t_schema) (fun _ _ => []) t_rels A ret 4 6.
Theorem C25_parent_refuted : exists A, g_seeds A = [] /\ g_aggs A = [] /\ g_trans A = [] /\ g_groups A = [] /\ g_depth A = 1%Z /\ too_deep t_rels 1 (t_run A None).
Proof. exists (w_args "t" [] [] [] 1 [] [] []). do 5 (split; [reflexivity|]). apply too_deep_check. vm_compute. reflexivity. Qed.
(** one parent and a primitive with two outputs: devices.TWO(price)[0] has depth 3 at max_depth=2 *)
Definition m_schema := [("s", [("id", YIndex); ("dev", YId)]); ("d", [("id", YIndex); ("price", YNumeric)])].
Definition m_rels := [mkRel "d" "id" "s" "dev"].
Definition m_run A ret := w_dfs ["s"; "d"] (w_vars m_schema) (w_types m_schema) (fun _ _ => []) m_rels A ret 4 6.
Theorem C25_outputs_refuted : exists A, g_seeds A = [] /\ g_trans A = [w_two] /\ g_depth A = 2%Z /\ too_deep m_rels 2 (m_run A None).
Proof. exists (w_args "s" [] [w_two] [] 2 [] [] []). do 3 (split; [reflexivity|]). apply too_deep_check. vm_compute. reflexivity. Qed.
(** the hypotheses of the partial theorem hold of real runs *)
Example C25_nonvacuous : exists fs f r b nm n, d_run (w_args "sessions" [w_sum] [w_abs] [] 2 [] [] []) None = Ok fs /\ In f fs /\ f = FDirect r b nm /\ get_depth d_rels None f = Ok n /\ n = 2 /\
  r_pe r <> "sessions" /\ fwhere b = None.
Proof.
  set (r := mkRel "customers" "id" "sessions" "cid"). set (b := FTrans w_abs [FIdent "customers" "age" None] None).
  destruct (d_run (w_args "sessions" [w_sum] [w_abs] [] 2 [] [] []) None) as [fs|] eqn:E; [|vm_compute in E; discriminate]. exists fs, (FDirect r b None), r, b, None, 2. split; [reflexivity|]. split; [|repeat (split; [reflexivity|]); split; [discriminate | reflexivity]].
  vm_compute in E. injection E as <-. cbn [In]. repeat (first [left; reflexivity | right]).
Qed.

(** ** C27: the relationships of an aggregation may run through an ignored entity *)
Definition i_schema := [("t", [("id", YIndex)]); ("s", [("id", YIndex); ("tid", YId)]); ("x", [("id", YIndex); ("sid", YId); ("tid", YId); ("v", YNumeric)])].
Definition i_rels := [mkRel "t" "id" "s" "tid"; mkRel "s" "id" "x" "sid"; mkRel "t" "id" "x" "tid"].
Definition i_run A ret := w_dfs ["t"; "s"; "x"] (w_vars i_schema) (w_types i_schema) (fun _ _ => []) i_rels A ret 4 6.
Definition on_path (e : string) (path : list relationship) : bool := existsb (fun r => String.eqb (r_pe r) e || String.eqb (r_ce r) e) path.
Theorem C27_path_refuted : exists A fs p m path u nm r, g_seeds A = [] /\ g_options A = [] /\ g_ignore_e A = ["s"] /\ i_run A None = Ok fs /\
  In (FAgg p m path u None None nm) fs /\ In r path /\ r_ce r = "s".
Proof.
  exists (w_args "t" [w_sum] [] [] 2 ["s"] [] []). destruct (i_run (w_args "t" [w_sum] [] [] 2 ["s"] [] []) None) as [fs|] eqn:E; [|vm_compute in E; discriminate].
  exists fs, w_sum, [FIdent "x" "v" None], [mkRel "t" "id" "s" "tid"; mkRel "s" "id" "x" "sid"], false, None, (mkRel "t" "id" "s" "tid"). do 4 (split; [reflexivity|]). split; [|split; [left; reflexivity | reflexivity]].
  vm_compute in E. injection E as <-. cbn [In]. repeat (first [left; reflexivity | right]).
Qed.

(** ** C31: a condition may be on a variable the primitive's options ignore *)
Theorem C31_condition_refuted : exists A fs f x, g_seeds A = [] /\ g_options A = [([KName "sum"], inl (mkPo None [] None [("sessions", ["k"])] None None None None))] /\
  d_run A None = Ok fs /\ In f fs /\ (exists m path u w nm, f = FAgg w_sum m path u w None nm) /\ reaches f x /\ x = FIdent "sessions" "k" None.
Proof.
  set (A := w_args "customers" [w_sum] [] [w_sum] 2 [] [] [([KName "sum"], inl (mkPo None [] None [("sessions", ["k"])] None None None None))]).
  destruct (d_run A None) as [fs|] eqn:E; [|vm_compute in E; discriminate]. set (w := FTrans (w_eq (VNum 1)) [FIdent "sessions" "k" None] None).
  exists A, fs, (FAgg w_sum [FIdent "sessions" "x" None] [mkRel "customers" "id" "sessions" "cid"] true (Some w) None None), (FIdent "sessions" "k" None). do 3 (split; [first [exact E | reflexivity]|]).
  split; [|split; [repeat eexists|]; split; [|reflexivity]].
  - vm_compute in E. injection E as <-. cbn [In]. repeat (first [left; reflexivity | right]).
  - apply (reaches_dep _ w); [right; left; reflexivity|]. apply (reaches_dep _ (FIdent "sessions" "k" None)); [left; reflexivity | constructor].
Qed.

Print Assumptions C26_result.
Print Assumptions C28_filters.
Print Assumptions C55_requested.
Print Assumptions C55_stacking.
Print Assumptions C31_dfs.
Print Assumptions C27_ignored_partial.
Print Assumptions C25_depth_partial.
Print Assumptions C25_seeds_partial.
Print Assumptions C25_condition_refuted.
Print Assumptions C25_parent_refuted.
Print Assumptions C25_outputs_refuted.
Print Assumptions C27_path_refuted.
Print Assumptions C31_condition_refuted.
