(** C73: the matrix calculated for the features that deep feature synthesis returns holds what those features mean. *)
From Coq Require Import Permutation.
From Verif Require Import Base BaseFacts M_Schema S_Schema M_Table M_Query S_Query S_View M_Feature M_FeatureSet M_Types M_Serialize M_Match M_DFS M_Calc M_CFM S_CFM S_DFS S_Calc S_Sem S_Value S_Total M_Names S_Names S_Ordinary S_DFSMatrix
  L_Ordinary L_DFSMatrix P_Value P_EndToEnd P_Total P_TotalMatrix.
Local Open Scope list_scope.

(** ** Requests with ordinary names *)
(** names are words, primitives behave: the request is answered and every cell holds the meaning of its feature *)
Theorem C73_ordinary_partial es style_of delta idvars ord eid fs tw incl sort_ids now pass m na size cs :
  good_es es -> index_present es -> good_idvars es idvars -> win_time tw -> (forall l, Permutation (ord l) l) -> (forall l, Permutation (sort_ids l) l) ->
  ordinary_schema es -> ordinary_features es style_of delta eid fs -> fs <> [] ->
  (forall f, In f fs -> single_column f \/ fdefault f = VNull) ->
  (forall c t, In c cs -> c_time c = Some t -> answerable es t tw incl fs) ->
  fair m -> (forall n a, m = Workers n a -> 0 < n) -> (forall num den, size = Some (num, den) -> (0 < den)%Z /\ (0 < num)%Z) ->
  NoDup (map (fun c => (c_id c, c_time c)) cs) -> (exists c, In c cs /\ c_time c <> None) ->
  exists fm, cfm (calculator es idvars ord fs incl) (fun _ => Ok tt) sort_ids now tw pass m false na size (CFrame cs) (CFrame cs) = Ok fm /\
    Forall2 (fun c r => fst r = (c_id c, c_time c) /\
      match c_time c with
      | Some t =>
          (forall f k n, In f fs -> nth_error (fnames (es_rels es) f) k = Some n -> ~ In n pass ->
             nth_error (value_of es t tw incl f (c_id c)) k = Some (cell n (snd r))) /\
          (forall n, In n pass -> cell n (snd r) = cell n (c_pass c))
      | None => forall n, cell n (snd r) = VNull
      end) cs fm.
Proof.
  intros Hes Hix Hid Htw Ho Hs Hos Hof Hne Hd Ha Hf Hw Hz Hn Hex.
  apply (C63_matrix_partial es idvars ord tw incl fs eid sort_ids now pass m na size cs); try assumption.
  - eapply ordinary_valid; eassumption.
  - intros c t Hc Et. eapply ordinary_runnable; [exact Hes | exact Hos | exact Hof | exact (Ha c t Hc Et)].
Qed.

(** ** The features that the search returns *)
Section DFS.
  Variables (es : entityset) (style_of : prim -> style -> Prop).
  Variables (entities : list string) (variables : string -> list string) (vtypes : string -> string -> option vtyp) (interesting : string -> string -> list val) (iof : string -> option string).
  Variables (p_ret : prim -> option vtyp) (p_inputs : prim -> option (list (list vtyp))) (attr : prim -> pattr) (subc : nat -> nat -> bool) (eq_prim : val -> prim).
  Variables (arity_of : okey -> option nat) (lower : string -> string) (ordF : list feat -> list feat).
  Hypothesis ordF_perm : forall l, Permutation (ordF l) l.
  Notation dfs A := (build_features entities variables vtypes interesting iof (es_rels es) p_ret p_inputs attr subc eq_prim arity_of lower ordF A).
  Variables (idvars : string -> list string) (ord : list string -> list string) (sort_ids : list val -> list val).
  Hypothesis ord_perm : forall l, Permutation (ord l) l.
  Hypothesis sort_perm : forall l, Permutation (sort_ids l) l.
  Hypothesis Hes : good_es es.
  Hypothesis Hix : index_present es.
  Hypothesis Hid : good_idvars es idvars.
  Hypothesis Hos : ordinary_schema es.

  Theorem C73_dfs_matrix_partial A ret tf fuel fs tw incl now pass m na size cs :
    ordinary_search es style_of entities variables vtypes interesting p_ret p_inputs eq_prim A ->
    missing_defaults p_inputs A -> win_time tw ->
    (forall c t, In c cs -> c_time c = Some t -> owned es p_inputs A tw incl t) ->
    dfs A ret tf fuel = Ok fs -> fs <> [] ->
    fair m -> (forall n a, m = Workers n a -> 0 < n) -> (forall num den, size = Some (num, den) -> (0 < den)%Z /\ (0 < num)%Z) ->
    NoDup (map (fun c => (c_id c, c_time c)) cs) -> (exists c, In c cs /\ c_time c <> None) ->
    exists fm, cfm (calculator es idvars ord fs incl) (fun _ => Ok tt) sort_ids now tw pass m false na size (CFrame cs) (CFrame cs) = Ok fm /\
      Forall2 (fun c r => fst r = (c_id c, c_time c) /\
        match c_time c with
        | Some t =>
            (forall f k n, In f fs -> nth_error (fnames (es_rels es) f) k = Some n -> ~ In n pass ->
               nth_error (value_of es t tw incl f (c_id c)) k = Some (cell n (snd r))) /\
            (forall n, In n pass -> cell n (snd r) = cell n (c_pass c))
        | None => forall n, cell n (snd r) = VNull
        end) cs fm.
  Proof.
    intros Hsr Hmd Htw Hown Hdfs Hne. apply (C73_ordinary_partial es style_of (fun _ => False) idvars ord (g_target A)); try assumption.
    - eapply dfs_ordinary; eassumption.
    - intros f Hf. eapply dfs_defaults; eassumption.
    - intros c t Hc Et. eapply dfs_answerable; [exact ordF_perm | exact Hsr | exact Hdfs | exact (Hown c t Hc Et)].
  Qed.

  Theorem C73_dfs_single_partial A ret tf fuel fs tw incl now pass m na size t ids :
    ordinary_search es style_of entities variables vtypes interesting p_ret p_inputs eq_prim A ->
    missing_defaults p_inputs A -> win_time tw -> owned es p_inputs A tw incl t ->
    dfs A ret tf fuel = Ok fs -> fs <> [] ->
    fair m -> (forall n a, m = Workers n a -> 0 < n) -> (forall num den, size = Some (num, den) -> (0 < den)%Z /\ (0 < num)%Z) ->
    NoDup ids -> ids <> [] ->
    cfm (calculator es idvars ord fs incl) (fun _ => Ok tt) sort_ids now tw pass m false na size (CSingle t ids) (CSingle t ids) =
      Ok (map (fun i => ((i, Some t), combine (flat_map (fnames (es_rels es)) fs) (flat_map (fun f => value_of es t tw incl f i) fs))) ids).
  Proof.
    intros Hsr Hmd Htw Hown Hdfs Hne. apply (C63_single_partial es idvars ord tw incl fs (g_target A)); try assumption.
    - eapply ordinary_valid; try eassumption. eapply dfs_ordinary; eassumption.
    - intros f Hf. eapply dfs_defaults; eassumption.
    - eapply ordinary_runnable; [exact Hes | exact Hos | eapply dfs_ordinary; eassumption | eapply dfs_answerable; eassumption].
  Qed.
End DFS.

(** ** A search over customers, sessions and events: sums, counts (also of the sessions on one device) and absolute values *)
From Verif Require Import L_Schema X_Demo P_Names P_ValueLink.
Local Open Scope string_scope.
Definition m_inputs (p : prim) : option (list (list vtyp)) :=
  if String.eqb (p_name p) "Count" then Some [[YIndex]] else if String.eqb (p_name p) "EqualScalar" then Some [[YVariable]] else Some [[YNumeric]].
Definition m_ret (p : prim) : option vtyp := if String.eqb (p_name p) "EqualScalar" then Some YBoolean else Some YNumeric.
Definition m_attr (p : prim) : pattr :=
  if String.eqb (p_name p) "Sum" then mkPa "sum" 1 1 true false None None None None None
  else if String.eqb (p_name p) "Count" then mkPa "count" 2 2 true false None None None None None
  else if String.eqb (p_name p) "Absolute" then mkPa "absolute" 3 3 false false None None None None None
  else mkPa "equal_scalar" 4 4 false false None None None None None.
Definition m_vars (e : string) : list (string * vtyp) :=
  if String.eqb e "cust" then [("id", YIndex); ("age", YNumeric)]
  else if String.eqb e "sess" then [("id", YIndex); ("cid", YId); ("t", YDatetimeTimeIndex); ("dev", YCategorical)]
  else if String.eqb e "event" then [("id", YIndex); ("sid", YId); ("t", YDatetimeTimeIndex); ("amt", YNumeric)] else [].
Definition m_variables (e : string) : list string := map fst (m_vars e).
Definition m_vtypes (e v : string) : option vtyp := dget String.eqb v (m_vars e).
Definition m_interesting (e v : string) : list val := if String.eqb v "dev" then [VNum 1] else [].
Definition m_args : dfs_args := mkArgs "cust" [Count; p_sum] [p_abs] [Count] [] 2 (-1) [] [] [] [] [] [] [] 1.
Definition m_run : res (list feat) :=
  build_features ["cust"; "sess"; "event"] m_variables m_vtypes m_interesting (fun _ => Some "id") demo_rels m_ret m_inputs m_attr Nat.eqb (fun _ => EqOne) (fun _ => Some 1) (fun s => s) (fun l => l)
    m_args None 4 6.

Lemma unary_good f p : p_nout p = 1 -> (forall t cs, p_trans p t cs = [map f (hd [] cs)]) -> good_trans p 1.
Proof.
  intros Hn Hp. split; [exact Hn|]. split; [intros t cs _; rewrite Hp; reflexivity|]. split.
  - intros t cs n o L Hc Ho. rewrite Hp in Ho. destruct Ho as [<-|[]]. rewrite map_length. destruct cs as [|c [|]]; try discriminate L. apply Hc. left. reflexivity.
  - intros _. exists (fun _ l => [f (hd VNull l)]). intros t cs n L Hc. rewrite Hp, Hn. destruct cs as [|c [|]]; try discriminate L. specialize (Hc c (or_introl eq_refl)). subst n. cbn [hd seq map].
    cbn [nth]. apply f_equal2; [|reflexivity]. clear. induction c as [|v c IH]; [reflexivity|]. cbn [map List.length seq nth]. f_equal. rewrite <- seq_shift, map_map. exact IH.
Qed.

Lemma demo_ordinary_schema : ordinary_schema (demo_es []).
Proof.
  constructor.
  - exact demo_schema.
  - intros e He. cbn in He. in_cases He; (split; [cbn; word_tac|]); intros c Hc; cbn in Hc; in_cases Hc; word_tac.
  - intros r0 r H0 H1 E. cbn in H0, H1. in_cases H0; in_cases H1; try discriminate E; reflexivity.
Qed.
Lemma demo_acyclic e : ~ reaches_cycle r_pe r_ce demo_rels e.
Proof.
  intros (b & p & q & _ & Hq & H). destruct q as [|r1 q]; [congruence|]. apply chain_cons_inv in H as (-> & H1 & H).
  destruct q as [|r2 q]; [apply chain_nil_inv in H; cbn in H1; in_cases H1; discriminate|]. apply chain_cons_inv in H as (E2 & H2 & H).
  destruct q as [|r3 q]; [apply chain_nil_inv in H; cbn in H1, H2; in_cases H1; in_cases H2; discriminate|]. apply chain_cons_inv in H as (E3 & H3 & _). cbn in H1, H2, H3. in_cases H1; in_cases H2; in_cases H3; discriminate.
Qed.
Lemma demo_search : ordinary_search (demo_es []) demo_style ["cust"; "sess"; "event"] m_variables m_vtypes m_interesting m_ret m_inputs (fun _ => EqOne) m_args.
Proof.
  constructor.
  - intros e He. cbn in He. in_cases He; eexists; reflexivity.
  - intros e v Hv. unfold m_variables, m_vars in Hv. destruct (String.eqb_spec e "cust") as [->|]; [|destruct (String.eqb_spec e "sess") as [->|]; [|destruct (String.eqb_spec e "event") as [->|]; [|destruct Hv]]];
      (eexists; split; [reflexivity | exact Hv]).
  - intros e v Hv. unfold m_vtypes, m_vars in Hv. destruct (String.eqb_spec e "cust") as [->|]; [|destruct (String.eqb_spec e "sess") as [->|]; [|destruct (String.eqb_spec e "event") as [->|]; [|cbn in Hv; discriminate Hv]]];
      cbn [dget] in Hv;
    (destruct (String.eqb_spec v "id") as [Ev|Ev]; [rewrite Ev; reflexivity|]);
    repeat (match type of Hv with context [String.eqb v ?b] => destruct (String.eqb v b) end; try discriminate Hv); discriminate Hv.
  - cbn. nodup_tac.
  - exact demo_acyclic.
  - reflexivity.
  - exact demo_styled.
  - intros p Hp. cbn in Hp. in_cases Hp. exists "ABSOLUTE", []. constructor.
  - intros p Hp. cbn in Hp. in_cases Hp; [right; split; [constructor | exists []; reflexivity] | left; exists "SUM", []; constructor].
  - intros e v x _. split; [exists "=", "1"; constructor|]. intros [E|[]]. apply (f_equal p_name) in E. discriminate E.
  - intros p ts sigs Hp E. cbn in Hp. in_cases Hp. injection E as <- <-. apply (unary_good (fun v => VNum (Z.abs (num v)))); reflexivity.
  - intros p ts sigs Hp E. cbn in Hp. in_cases Hp; injection E as <- <-; (split; [reflexivity|]); intros t cs _; reflexivity.
  - intros e v x _. split; [apply (unary_good (fun v => VBool (val_eqb v (VNum 1)))); reflexivity|]. split; [|reflexivity].
    intros t cs o y _ Ho Hy. destruct Ho as [<-|[]]. apply in_map_iff in Hy as (z & <- & _). eexists. reflexivity.
  - intros p Hp. cbn in Hp. in_cases Hp; eexists; eexists; (split; [reflexivity | discriminate]).
  - intros p Hp. cbn in Hp. in_cases Hp; discriminate.
  - intros p p' Hp Hp' C C'. cbn in Hp, Hp'. in_cases Hp; in_cases Hp'; try discriminate; reflexivity.
  - left. intros p Hp. cbn in Hp. in_cases Hp. reflexivity.
Qed.

(** the hypotheses are met, the search returns eleven features, and the theorem gives their values *)
Example C73_nonvacuous :
  good_es (demo_es []) /\ index_present (demo_es []) /\ good_idvars (demo_es []) demo_idvars /\ ordinary_schema (demo_es []) /\
  ordinary_search (demo_es []) demo_style ["cust"; "sess"; "event"] m_variables m_vtypes m_interesting m_ret m_inputs (fun _ => EqOne) m_args /\
  missing_defaults m_inputs m_args /\ owned (demo_es []) m_inputs m_args None true 8 /\
  exists fs, m_run = Ok fs /\
    map (fname demo_rels) fs = ["age"; "COUNT(sess)"; "COUNT(event)"; "SUM(event.amt)"; "ABSOLUTE(age)"; "COUNT(sess WHERE dev = 1)";
      "SUM(sess.COUNT(event))"; "SUM(sess.SUM(event.amt))"; "ABSOLUTE(COUNT(event))"; "ABSOLUTE(COUNT(sess))"; "ABSOLUTE(SUM(event.amt))"] /\
    flat_map (fun f => value_of (demo_es []) 8 None true f (VNum 1)) fs =
      [VNum 30; VNum 2; VNum 3; VNum 24; VNum 30; VNum 1; VNum 3; VNum 24; VNum 3; VNum 2; VNum 24].
Proof.
  destruct (demo_request (fun l => l) (fun l => Permutation_refl l)) as [H1 H2 H3 _ _ _ _ _].
  split; [exact H1|]. split; [exact H2|]. split; [exact H3|]. split; [exact demo_ordinary_schema|]. split; [exact demo_search|].
  split; [intros p Hp; left; cbn in Hp; in_cases Hp; (split; [reflexivity | eexists; eexists; reflexivity])|].
  split; [intros p Hp; left; cbn in Hp; in_cases Hp; (split; [reflexivity | eexists; eexists; reflexivity])|].
  destruct m_run as [fs|] eqn:E; [|vm_compute in E; discriminate E]. exists fs. split; [reflexivity|]. vm_compute in E. injection E as <-. split; vm_compute; reflexivity.
Qed.
Print Assumptions C73_ordinary_partial.
Print Assumptions C73_dfs_matrix_partial.
Print Assumptions C73_dfs_single_partial.
