(** C70: examples and counterexamples. *)
From Verif Require Import Base BaseFacts M_Schema M_Feature M_Types M_Match M_DFS M_Words S_Schema S_Calc S_DFS S_Words P_DFSCase P_Words.
Local Open Scope string_scope.
Local Open Scope list_scope.

(** stores, customers and sessions *)
Definition v_rels := [mkRel "stores" "id" "customers" "store"; mkRel "customers" "id" "sessions" "cid"; mkRel "customers" "id" "sessions" "payer"].
Definition v_desc (e v : string) : string := ("the """ ++ v ++ """")%string.
Definition v_index (e : string) : string := "id".
Definition v_name (p : prim) : option string := if String.eqb (p_name p) "Sum" then Some "sum" else if String.eqb (p_name p) "Absolute" then Some "absolute" else if String.eqb (p_name p) "Two" then Some "two" else None.
Definition v_templ (p : prim) : option templates :=
  if String.eqb (p_name p) "Sum" then Some (One [Lit "the sum of "; Next])
  else if String.eqb (p_name p) "Two" then Some (Many [[Lit "both of "; Next]; [Lit "the "; Nth; Lit " of "; Next]]) else None.
(** > 5 and = 1 *)
Definition v_gt : prim := mkPrim "gt5" 1 false false VNull false (fun bs => String.concat "" bs ++ " > 5")%string (w_agg "GT") (fun _ cs => cs) (fun _ _ => []).
Definition v_value (p : prim) : option string := if String.eqb (p_name p) "gt5" then Some "5" else if String.eqb (p_name p) "eq1" then Some "1" else None.
Definition v_upper (s : string) : string := if String.eqb s "t" then "T" else if String.eqb s "h" then "H" else if String.eqb s "absolute" then "ABSOLUTE" else s.
Definition v_lower (s : string) : string := if String.eqb s "3 Days" then "3 days" else s.
Definition v_pid (p : prim) : nat := String.length (p_name p).
Definition v_describe descs overrides f := describe_feature v_rels v_desc v_index v_name v_templ v_value v_pid v_upper v_lower descs overrides (fsize f) f.
Definition v_x := FIdent "sessions" "x" None.
Definition v_cid := mkRel "customers" "id" "sessions" "cid".
Definition v_payer := mkRel "customers" "id" "sessions" "payer".
Definition v_store := mkRel "stores" "id" "customers" "store".
Definition v_days := mkTd [("d", 3%Z)] (fun t => (t - 3)%Z) "3 Days".
Definition v_eq1 := FTrans (w_eq (VNum 1)) [FIdent "sessions" "k" None] None.
Definition v_agg := FAgg w_sum [FTrans w_abs [v_x] None] [v_cid] false (Some v_eq1) (Some v_days) None.

Example C70_nonvacuous :
  v_describe [] [] v_agg = Ok "The sum of the result of applying ABSOLUTE to the ""x"" of the previous 3 days of ""sessions"" where the ""k"" is 1 for each ""id"" in ""customers""." /\
  v_describe [(KFeat v_x, "how much was paid"); (KStr "customers: id", "the customer")] [(PStr "absolute", One [Lit "the size of "; Arg 0])] v_agg =
    Ok "The sum of the size of how much was paid of the previous 3 days of ""sessions"" where the ""k"" is 1 for each customer." /\
  v_describe [] [] (FSlice (FTrans w_two [v_x] None) 1 None) = Ok "The 2nd of the ""x""." /\
  v_describe [(KStr "sessions: ABSOLUTE(x)", "how far it is")] [] (FTrans w_abs [v_x] None) = Ok "How far it is." /\
  v_describe [] [] (FGroup w_abs [v_x] (FIdent "sessions" "k" None) None) = Ok "The result of applying ABSOLUTE to the ""x"" for each ""k""." /\
  v_describe [] [] (FDirect v_cid (FDirect v_store (FIdent "stores" "size" None) None) None) =
    Ok "The ""size"" for the instance of ""stores"" associated with the instance of ""customers"" associated with this instance of ""sessions"".".
Proof. repeat split; vm_compute; reflexivity. Qed.
(** the hypotheses of C70_inputs and C70_total hold of it *)
Example C70_inputs_nonvacuous :
  shows v_name v_templ v_pid [] v_agg /\ told_of v_agg (FTrans w_abs [v_x] None) /\ told_of v_agg (FIdent "sessions" "k" None) /\
  (forall g, reaches v_agg g -> says_how v_name v_templ v_pid [] g) /\ (forall g w, reaches v_agg g -> fwhere g = Some w -> equal_to_value v_value w).
Proof.
  split; [|split; [|split; [|split]]].
  - intros t Ht. cbn in Ht. subst t. intros i Hi. cbn in Hi. left. cbn. lia.
  - apply told_agg. left; reflexivity.
  - eapply told_where. reflexivity.
  - assert (forall g, reaches v_agg g -> In g [v_agg; FTrans w_abs [v_x] None; v_x; v_eq1; FIdent "sessions" "k" None]) as H.
    { intros g H. assert (forall f d, In f [v_agg; FTrans w_abs [v_x] None; v_x; v_eq1; FIdent "sessions" "k" None] -> In d (fdeps f) -> In d [v_agg; FTrans w_abs [v_x] None; v_x; v_eq1; FIdent "sessions" "k" None]) as Hcl.
      { intros f d Hf Hd. cbn [In] in Hf. destruct Hf as [<-|[<-|[<-|[<-|[<-|[]]]]]]; cbv [fdeps v_agg v_eq1 v_x fbases fwhere app] in Hd; cbn [In] in Hd; repeat (destruct Hd as [<-|Hd]); try (destruct Hd); cbn [In]; repeat (first [left; reflexivity | right]). }
      assert (In v_agg [v_agg; FTrans w_abs [v_x] None; v_x; v_eq1; FIdent "sessions" "k" None]) as Ha by (left; reflexivity). revert H Ha. generalize v_agg at 1 2 as f. intros f H Ha. induction H as [f|f d g Hd H IH]; [exact Ha|]. apply IH. eapply Hcl; eassumption. }
    intros g Hg. apply H in Hg. cbn [In] in Hg. destruct Hg as [<-|[<-|[<-|[<-|[<-|[]]]]]]; unfold says_how; cbn [fprim v_agg v_x v_eq1]; try exact I; [|left; reflexivity|left; reflexivity].
    right. exists [Lit "the sum of "; Next]. split; [reflexivity|]. split; [left; split; [cbn; lia|] | ]; cbn [In]; intuition discriminate.
  - intros g w Hr Hw. assert (w = v_eq1) as ->.
    { assert (forall f g, reaches f g -> f = v_agg \/ f = FTrans w_abs [v_x] None \/ f = v_x \/ f = v_eq1 \/ f = FIdent "sessions" "k" None -> g = v_agg \/ fwhere g = None) as H.
      { intros f h H. induction H as [f|f d h Hd H IH]; intros Hf.
        - destruct Hf as [->|[->|[->|[->| ->]]]]; auto.
        - apply IH. destruct Hf as [->|[->|[->|[->| ->]]]]; cbv [fdeps v_agg v_eq1 v_x fbases fwhere app] in Hd; cbn [In] in Hd; repeat (destruct Hd as [<-|Hd]); try (destruct Hd); auto. }
      destruct (H _ _ Hr (or_introl eq_refl)) as [->|E]; [|congruence]. cbn [fwhere v_agg] in Hw. congruence. }
    split; [discriminate|]. exists (w_eq (VNum 1)), "1". split; reflexivity.
Qed.

(** ** Where the description is wrong, or there is none *)
(** a condition other than equality is described as equality *)
Theorem C70_condition_refuted :
  v_describe [] [] (FAgg w_sum [v_x] [v_cid] false (Some (FTrans v_gt [v_x] None)) None None) =
    Ok "The sum of the ""x"" of all instances of ""sessions"" where the ""x"" is 5 for each ""id"" in ""customers""." /\
  fname v_rels (FTrans v_gt [v_x] None) = "x > 5".
Proof. split; vm_compute; reflexivity. Qed.
(** a condition that is a yes/no column, or another feature without a value, has no description *)
Theorem C70_no_description_refuted :
  v_describe [] [] (FAgg w_sum [v_x] [v_cid] false (Some (FIdent "sessions" "ok" None)) None None) = Err IndexError /\
  v_describe [] [] (FAgg w_sum [v_x] [v_cid] false (Some (FTrans w_abs [v_x] None)) None None) = Err AttributeError /\
  v_describe [(KFeat v_x, "")] [] v_x = Err TypeError.
Proof. repeat split; vm_compute; reflexivity. Qed.
(** descriptions given for a feature on the way are not always used: the parent's feature on the way up, the feature an output is taken of *)
Theorem C70_given_refuted :
  v_describe [(KFeat (FDirect v_store (FIdent "stores" "size" None) None), "how big it is")] [] (FDirect v_cid (FDirect v_store (FIdent "stores" "size" None) None) None) =
    Ok "The ""size"" for the instance of ""stores"" associated with the instance of ""customers"" associated with this instance of ""sessions""." /\
  v_describe [(KFeat (FTrans w_two [v_x] None), "a pair")] [] (FSlice (FTrans w_two [v_x] None) 0 None) = Ok "The 1st of the ""x"".".
Proof. split; vm_compute; reflexivity. Qed.
(** an output of a feature computed in groups does not name the group, and an output of a parent's feature does not name the parent *)
Theorem C70_output_refuted :
  v_describe [] [] (FSlice (FGroup w_two [v_x] (FIdent "sessions" "k" None) None) 0 None) = Ok "The 1st of the ""x""." /\
  v_describe [] [] (FSlice (FDirect v_cid (FTrans w_two [FIdent "customers" "age" None] None) None) 0 None) =
    Ok "The 1st output from applying PrimitiveBase to both of the ""age"".".
Proof. split; vm_compute; reflexivity. Qed.
(** features of different parents, reached by different columns, have the same description *)
Theorem C70_same_refuted : exists f g s, fname v_rels f <> fname v_rels g /\ v_describe [] [] f = Ok s /\ v_describe [] [] g = Ok s.
Proof.
  exists (FDirect v_cid (FIdent "customers" "age" None) None), (FDirect v_payer (FIdent "customers" "age" None) None). eexists. split; [vm_compute; discriminate|]. split; vm_compute; reflexivity.
Qed.
(** a string that happens to be the name followed by the entity is taken for the feature *)
Theorem C70_key_refuted : v_describe [(KStr "xsessions", "something else"); (KStr "sessions: x", "how much was paid")] [] v_x = Ok "something else.".
Proof. vm_compute. reflexivity. Qed.

Print Assumptions C70_inputs.
Print Assumptions C70_custom.
Print Assumptions C70_local.
Print Assumptions C70_total.
Print Assumptions C70_aggregation.
Print Assumptions C70_file.
Print Assumptions C70_output.
Print Assumptions C70_parent.
Print Assumptions C70_ordinals.
Print Assumptions C70_same_refuted.
