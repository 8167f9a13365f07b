(** C29: deep feature synthesis terminates on every graph without a cycle below, and on no other. *)
From Coq Require Import Permutation.
From Verif Require Import Base BaseFacts M_Schema M_Feature M_Types M_Serialize M_Match M_DFS S_Schema S_Calc S_Match S_Depth S_DFS L_Schema P_Schema P_Depth P_Match L_DFS P_DFS P_DFSCase.
Local Open Scope string_scope.
Local Open Scope list_scope.

(** the computation does not run out of steps *)
Definition ends {X} (r : res X) : Prop := r <> Err OutOfFuel.
Lemma ends_ok {X} (x : X) : ends (Ok x). Proof. discriminate. Qed.
Lemma ends_bind {X Y} (m : res X) (k : X -> res Y) : ends m -> (forall x, m = Ok x -> ends (k x)) -> ends (bind m k).
Proof. intros Hm Hk. destruct m as [x|e]; cbn [bind]; [apply Hk; reflexivity | intros [= ->]; apply Hm; reflexivity]. Qed.
Lemma ends_mapM {X Y} (f : X -> res Y) l : (forall x, In x l -> ends (f x)) -> ends (mapM f l).
Proof.
  induction l as [|a l IH]; intros H; cbn [mapM]; [apply ends_ok|]. apply ends_bind; [apply H; left; reflexivity|]. intros y _. apply ends_bind; [apply IH; intros x Hx; apply H; right; exact Hx | intros; apply ends_ok].
Qed.
Lemma ends_foldM {X S} (P : S -> Prop) (f : S -> X -> res S) l : (forall s a, In a l -> P s -> ends (f s a)) -> (forall s a s', In a l -> P s -> f s a = Ok s' -> P s') -> forall s, P s -> ends (foldM f l s).
Proof.
  induction l as [|a l IH]; intros He Hp s Hs; cbn [foldM]; [apply ends_ok|]. apply ends_bind; [apply He; [left; reflexivity | exact Hs]|]. intros s' E.
  apply IH; [intros s1 b Hb; apply He; right; exact Hb | intros s1 b s2 Hb; apply Hp; right; exact Hb | eapply Hp; [left; reflexivity | exact Hs | exact E]].
Qed.
Lemma ends_foldM' {X S} (f : S -> X -> res S) l : (forall s a, In a l -> ends (f s a)) -> forall s, ends (foldM f l s).
Proof. intros H s. apply (ends_foldM (fun _ => True)); auto. Qed.

Section Term.
  Variable entities : list string.
  Variable variables : string -> list string.
  Variable vtypes : string -> string -> option vtyp.
  Variable interesting : string -> string -> list val.
  Variable index_of : string -> option string.
  Variable rels : list relationship.
  Variable p_ret : prim -> option vtyp.
  Variable p_inputs : prim -> option (list (list vtyp)).
  Variable attr : prim -> pattr.
  Variable subc : nat -> nat -> bool.
  Variable eq_prim : val -> prim.
  Variable arity_of : okey -> option nat.
  Variable lower : string -> string.
  Variable ordF : list feat -> list feat.
  Notation dfs := (build_features entities variables vtypes interesting index_of rels p_ret p_inputs attr subc eq_prim arity_of lower ordF).

  Lemma ends_check_bases bs : ends (check_bases bs).
  Proof. destruct bs; [discriminate|]. unfold check_bases. destruct (negb _); [discriminate|]. destruct (existsb _ _); discriminate. Qed.
  Lemma ends_unique a b : ends (has_unique_forward_path rels a b).
  Proof. unfold has_unique_forward_path. destruct (C17_find_forward_paths_exact rels a b) as (ps & -> & _). cbn [bind]. destruct ps as [|? [|[|] ?]]; discriminate. Qed.
  Lemma ends_agg p m path wh nm : ends (mk_agg p_ret p_inputs vtypes rels (fun _ _ => Ok tt) p m path wh None nm).
  Proof.
    unfold mk_agg. apply ends_bind; [apply ends_check_bases|]. intros _ _. destruct path as [|r path]; [discriminate|]. destruct (negb _); [discriminate|]. apply ends_bind; [apply ends_unique|]. intros u _.
    apply ends_bind; [destruct wh; [destruct (String.eqb _ _)|]; discriminate|]. intros _ _. cbn [bind]. destruct (check_types _ _ _ _); discriminate.
  Qed.
  Lemma ends_trans p m nm : ends (mk_trans p_ret p_inputs vtypes p m nm).
  Proof. unfold mk_trans. apply ends_bind; [apply ends_check_bases|]. intros _ _. destruct (check_types _ _ _ _); discriminate. Qed.
  Lemma ends_group p m g nm : ends (mk_group p_ret p_inputs vtypes p m g nm).
  Proof. unfold mk_group. destruct (negb _); [discriminate|]. apply ends_bind; [apply ends_check_bases|]. intros _ _. destruct (check_types _ _ _ _); discriminate. Qed.
  Lemma ends_depth stop f : ends (get_depth rels stop f).
  Proof. destruct (C24_depth rels stop f) as (n & Hn & _). cbn zeta in Hn. rewrite Hn. discriminate. Qed.

  Section Run.
    Variable A : dfs_args.
    Variable G : gopts.
    Lemma ends_handle f all : ends (handle_new_feature rels A f all).
    Proof. unfold handle_new_feature. destruct (dget _ _ _); [|discriminate]. match goal with |- ends (if ?c then _ else _) => destruct c end; discriminate. Qed.
    Lemma ends_add fs all : ends (add_all rels A fs all).
    Proof. apply ends_foldM'. intros. apply ends_handle. Qed.
    Lemma ends_identity e all : ends (add_identity_features variables vtypes rels A G e all).
    Proof.
      unfold add_identity_features. apply ends_bind; [apply ends_mapM; intros v _; unfold mk_ident; destruct (is_var _ _ _); discriminate|]. intros ids _. apply ends_bind; [apply ends_add|]. intros all' _. apply ends_add.
    Qed.
    Lemma ends_where e s : ends (build_where_clauses vtypes interesting rels p_ret p_inputs eq_prim e s).
    Proof. unfold build_where_clauses. apply ends_bind; [|intros; apply ends_ok]. apply ends_mapM. intros f _. destruct f; try apply ends_ok. apply ends_mapM. intros x _. apply ends_trans. Qed.
    Lemma ends_by_type all e md ts : ends (features_by_type vtypes rels p_ret A all e md ts).
    Proof.
      unfold features_by_type. destruct (match md with Some m => Z.ltb m 0 | None => false end); [discriminate|]. destruct (dget _ _ _) as [d|]; [|discriminate]. apply ends_bind.
      - unfold expand. apply ends_foldM'. intros acc kv _. destruct (Nat.ltb _ _); [|discriminate]. apply ends_bind; [|intros; apply ends_ok]. apply ends_mapM. intros i _. unfold mk_slice. destruct (_ && _)%bool; discriminate.
      - intros d' _. match goal with |- ends (filterM _ ?l) => generalize l end. intros l. induction l as [|f l IH]; cbn [filterM]; [discriminate|].
        apply ends_bind; [unfold deep_enough; destruct md; [apply ends_bind; [apply ends_depth | intros; apply ends_ok] | discriminate]|]. intros b _. apply ends_bind; [exact IH | intros; apply ends_ok].
    Qed.
    Lemma ends_filter ms os g c : ends (filter_matches_by_options rels p_ret vtypes ms os g c).
    Proof. unfold filter_matches_by_options. destruct ms, os; discriminate. Qed.
    Lemma ends_types p : ends (dfs_types p_inputs p).
    Proof. unfold dfs_types. destruct (p_inputs p) as [[|? ?]|]; discriminate. Qed.
    Lemma ends_matching all e md ts p direct flt : ends (get_matching_inputs vtypes rels p_ret attr lower ordF A G all e md ts p direct flt).
    Proof.
      unfold get_matching_inputs. apply ends_bind; [apply ends_by_type|]. intros fs _. apply ends_bind; [|intros; apply ends_filter]. unfold match_inputs. destruct ts as [|t [|t' ts]]; try discriminate. destruct (a_comm (attr p)); discriminate.
    Qed.
    Lemma ends_transform e md direct s : ends (build_transform_features vtypes rels p_ret p_inputs attr lower ordF A G e md direct s).
    Proof.
      unfold build_transform_features. apply ends_bind; [|intros t _; apply ends_bind; [|intros g _; apply ends_bind; [apply ends_add | intros; apply ends_ok]]].
      - apply ends_mapM. intros p _. unfold trans_step. destruct (ignore_entity_for_primitive _ _ _); [discriminate|]. apply ends_bind; [apply ends_types|]. intros ts _. apply ends_bind; [apply ends_matching|]. intros ms _. apply ends_mapM. intros m _. apply ends_trans.
      - apply ends_mapM. intros p _. unfold group_step. destruct (ignore_entity_for_primitive _ _ _); [discriminate|]. apply ends_bind; [apply ends_types|]. intros ts _. apply ends_bind; [apply ends_matching|]. intros ms _. apply ends_bind; [apply ends_by_type|]. intros gs _.
        apply ends_bind; [apply ends_filter|]. intros gs' _. apply ends_bind; [|intros; apply ends_ok]. apply ends_mapM. intros m _. apply ends_mapM. intros g _. destruct g; [discriminate | apply ends_group].
    Qed.
    Lemma ends_forward path md s : ends (build_forward_features vtypes rels p_ret A path md s).
    Proof.
      unfold build_forward_features. destruct path as [|[b r] path]; [discriminate|]. apply ends_bind; [apply ends_by_type|]. intros fs _. apply ends_bind; [apply ends_mapM; intros f _; unfold mk_direct; destruct (String.eqb _ _); discriminate|]. intros ds _. apply ends_bind; [apply ends_add | intros; apply ends_ok].
    Qed.
    Lemma ends_stacking p m : ends (check_stacking attr subc p m).
    Proof. unfold check_stacking. repeat match goal with |- ends (if ?c then _ else _) => destruct c | |- ends (match ?c with _ => _ end) => destruct c | |- ends (Ok _) => apply ends_ok | |- ends (Err _) => discriminate end. Qed.
    Lemma ends_build_agg pe ce path md s : ends (build_agg_features vtypes rels p_ret p_inputs attr subc lower ordF A G pe ce path md s).
    Proof.
      unfold build_agg_features. apply ends_foldM'. intros s' p _. destruct (ignore_entity_for_primitive _ _ _); [discriminate|]. apply ends_bind; [apply ends_types|]. intros ts _. apply ends_bind; [apply ends_matching|]. intros ms _. apply ends_bind; [apply ends_filter|]. intros ms' _.
      apply ends_foldM'. intros s1 m _. unfold agg_one. apply ends_bind; [apply ends_stacking|]. intros ok _. destruct (negb ok); [discriminate|]. apply ends_bind; [apply ends_agg|]. intros f _. apply ends_bind; [apply ends_handle|]. intros all _.
      destruct (Nat.leb _ _); [discriminate|]. destruct (negb _); [discriminate|]. apply ends_bind; [apply ends_mapM; intros w _; apply ends_agg|]. intros fs _. apply ends_bind; [apply ends_add | intros; apply ends_ok].
    Qed.

    (** visited entities stay visited *)
    Notation keeps a b := (forall e, dget String.eqb e a <> None -> dget String.eqb e b <> None).
    Lemma dset_keeps {V} k (v : V) d : keeps d (dset String.eqb k v d).
    Proof. intros e He. destruct (String.eqb_spec e k) as [->|Hk]; [rewrite (dget_dset_same _ String.eqb_spec); discriminate | rewrite (dget_dset_other _ String.eqb_spec) by exact Hk; exact He]. Qed.
    Lemma handle_keeps f all all' : handle_new_feature rels A f all = Ok all' -> keeps all all'.
    Proof. unfold handle_new_feature. destruct (dget _ _ _) as [d|]; [|discriminate]. match goal with |- (if ?c then _ else _) = _ -> _ => destruct c end; intros [= <-]; [auto | apply dset_keeps]. Qed.
    Lemma add_keeps fs all all' : add_all rels A fs all = Ok all' -> keeps all all'.
    Proof. unfold add_all. apply (foldM_inv (fun x => keeps all x)); [|auto]. intros s f s' _ Hs E e He. apply (handle_keeps _ _ _ E). apply Hs. exact He. Qed.
    Lemma transform_keeps e md direct s s' : build_transform_features vtypes rels p_ret p_inputs attr lower ordF A G e md direct s = Ok s' -> keeps (s_all s) (s_all s').
    Proof.
      unfold build_transform_features. destruct (mapM _ _) as [t|]; cbn [bind]; [|discriminate]. destruct (mapM _ _) as [g|]; cbn [bind]; [|discriminate]. destruct (add_all _ _ _ _) as [all|] eqn:E; cbn [bind]; [|discriminate]. intros [= <-]. apply (add_keeps _ _ _ E).
    Qed.
    Lemma forward_keeps path md s s' : build_forward_features vtypes rels p_ret A path md s = Ok s' -> keeps (s_all s) (s_all s').
    Proof.
      unfold build_forward_features. destruct path as [|[b r] path]; [discriminate|]. destruct (features_by_type _ _ _ _ _ _ _ _) as [fs|]; cbn [bind]; [|discriminate]. destruct (mapM _ _) as [g|]; cbn [bind]; [|discriminate]. destruct (add_all _ _ _ _) as [all|] eqn:E; cbn [bind]; [|discriminate]. intros [= <-]. apply (add_keeps _ _ _ E).
    Qed.
    Lemma agg_keeps pe ce path md s s' : build_agg_features vtypes rels p_ret p_inputs attr subc lower ordF A G pe ce path md s = Ok s' -> keeps (s_all s) (s_all s').
    Proof.
      unfold build_agg_features. apply (foldM_inv (fun x => keeps (s_all s) (s_all x))); [|auto]. intros s1 p s2 _ H1 E. destruct (ignore_entity_for_primitive _ _ _); [injection E as <-; exact H1|]. destruct (dfs_types _ _); cbn [bind] in E; [|discriminate].
      destruct (get_matching_inputs _ _ _ _ _ _ _ _ _ _ _ _ _ _ _) as [ms|]; cbn [bind] in E; [|discriminate]. destruct (filter_matches_by_options _ _ _ _ _ _ _) as [ms'|]; cbn [bind] in E; [|discriminate]. revert E. apply (foldM_inv (fun x => keeps (s_all s) (s_all x))); [|exact H1]. clear s1 s2 H1.
      intros s1 m s2 _ H1 E. unfold agg_one in E. destruct (check_stacking _ _ _ _) as [ok|]; cbn [bind] in E; [|discriminate]. destruct (negb ok); [injection E as <-; exact H1|]. destruct (mk_agg _ _ _ _ _ _ _ _ _ _ _) as [f|]; cbn [bind] in E; [|discriminate].
      destruct (handle_new_feature _ _ _ _) as [all|] eqn:Eh; cbn [bind] in E; [|discriminate]. assert (keeps (s_all s) all) as Hall by (intros e He; apply (handle_keeps _ _ _ Eh), H1; exact He). destruct (Nat.leb _ _); [injection E as <-; exact Hall|]. destruct (negb _); [injection E as <-; exact Hall|].
      destruct (mapM _ _) as [fs|]; cbn [bind] in E; [|discriminate]. destruct (add_all _ _ _ _) as [all'|] eqn:Ea; cbn [bind] in E; [|discriminate]. injection E as <-. intros e He. apply (add_keeps _ _ _ Ea), Hall. exact He.
    Qed.
    Lemma where_keeps e s s' : build_where_clauses vtypes interesting rels p_ret p_inputs eq_prim e s = Ok s' -> keeps (s_all s) (s_all s').
    Proof. unfold build_where_clauses. destruct (mapM _ _) as [ws|]; cbn [bind]; [|discriminate]. intros [= <-]. auto. Qed.
    Lemma identity_keeps e all all' : add_identity_features variables vtypes rels A G e all = Ok all' -> keeps all all'.
    Proof. unfold add_identity_features. destruct (mapM _ _) as [ids|]; cbn [bind]; [|discriminate]. destruct (add_all _ _ _ _) as [all1|] eqn:E1; cbn [bind]; [|discriminate]. intros E2 x Hx. apply (add_keeps _ _ _ E2), (add_keeps _ _ _ E1). exact Hx. Qed.

    Notation run := (run_dfs variables vtypes interesting rels p_ret p_inputs attr subc eq_prim lower ordF A G).
    Lemma run_keeps tf fuel : forall e path md s s', run tf fuel e path md s = Ok s' -> keeps (s_all s) (s_all s').
    Proof.
      induction fuel as [|fuel IH]; intros e path md s s'; cbn [run_dfs]; destruct (match md with Some m => Z.ltb m 0 | None => false end); try (intros [= <-]; auto; fail); try discriminate.
      destruct (add_identity_features _ _ _ _ _ _ _) as [all|] eqn:Ea; cbn [bind]; [|discriminate].
      assert (forall l s1 s2, foldM (fun s (ep : string * list edge) => if M_DFS.visited s (fst ep) || skip_entity A G path ep then Ok s else run tf fuel (fst ep) (path ++ snd ep) (lower_depth md) s) l s1 = Ok s2 -> keeps (s_all s1) (s_all s2)) as Hv.
      { intros l s1 s2. apply (foldM_inv (fun x => keeps (s_all s1) (s_all x))); [|auto]. intros s3 ep s4 _ H3 E. destruct (_ || _)%bool; [injection E as <-; exact H3|]. intros x Hx. apply (IH _ _ _ _ _ E), H3. exact Hx. }
      destruct (get_backward_entities 1 rels e false) as [back|]; cbn [bind]; [|discriminate]. match goal with |- bind ?m _ = _ -> _ => destruct m as [s1|] eqn:E1 end; cbn [bind]; [|discriminate].
      destruct (get_backward_entities tf rels e true) as [deep|]; cbn [bind]; [|discriminate]. match goal with |- bind ?m _ = _ -> _ => destruct m as [s2|] eqn:E2 end; cbn [bind]; [|discriminate].
      match goal with |- bind ?m _ = _ -> _ => destruct m as [s3|] eqn:E3 end; cbn [bind]; [|discriminate]. destruct (get_forward_entities 1 rels e false) as [fwd|]; cbn [bind]; [|discriminate].
      match goal with |- bind ?m _ = _ -> _ => destruct m as [s4|] eqn:E4 end; cbn [bind]; [|discriminate]. match goal with |- bind ?m _ = _ -> _ => destruct m as [s5|] eqn:E5 end; cbn [bind]; [|discriminate].
      match goal with |- bind ?m _ = _ -> _ => destruct m as [s6|] eqn:E6 end; cbn [bind]; [|discriminate]. intros E7 x Hx.
      apply (where_keeps _ _ _ E7), (transform_keeps _ _ _ _ _ E6). assert (keeps (s_all s4) (s_all s5)) as K5.
      { revert E5. apply (foldM_inv (fun x => keeps (s_all s4) (s_all x))); [|auto]. intros a ep b _ H3 E y Hy. destruct (skip_entity _ _ _ _); [injection E as <-; apply H3; exact Hy|]. apply (forward_keeps _ _ _ _ E), H3. exact Hy. }
      apply K5, (Hv _ _ _ E4), (transform_keeps _ _ _ _ _ E3). assert (keeps (s_all s1) (s_all s2)) as K2.
      { revert E2. apply (foldM_inv (fun x => keeps (s_all s1) (s_all x))); [|auto]. intros a ep b _ H3 E y Hy. destruct (skip_entity _ _ _ _); [injection E as <-; apply H3; exact Hy|]. apply (agg_keeps _ _ _ _ _ _ E), H3. exact Hy. }
      apply K2, (Hv _ _ _ E1). cbn [s_all]. apply (identity_keeps _ _ _ Ea), dset_keeps. exact Hx.
    Qed.
    Lemma run_visits tf fuel e path md s s' : match md with Some m => Z.ltb m 0 | None => false end = false -> run tf fuel e path md s = Ok s' -> dget String.eqb e (s_all s') <> None.
    Proof.
      destruct fuel as [|fuel]; intros Hmd; cbn [run_dfs]; rewrite Hmd; [discriminate|]. destruct (add_identity_features _ _ _ _ _ _ _) as [all|] eqn:Ea; cbn [bind]; [|discriminate]. intros E.
      assert (dget String.eqb e all <> None) as H0 by (apply (identity_keeps _ _ _ Ea); rewrite (dget_dset_same _ String.eqb_spec); discriminate).
      pose proof (fun l s1 s2 (H : foldM (fun s (ep : string * list edge) => if M_DFS.visited s (fst ep) || skip_entity A G path ep then Ok s else run tf fuel (fst ep) (path ++ snd ep) (lower_depth md) s) l s1 = Ok s2) => H) as _.
      assert (forall l s1 s2, foldM (fun s (ep : string * list edge) => if M_DFS.visited s (fst ep) || skip_entity A G path ep then Ok s else run tf fuel (fst ep) (path ++ snd ep) (lower_depth md) s) l s1 = Ok s2 -> keeps (s_all s1) (s_all s2)) as Hv.
      { intros l s1 s2. apply (foldM_inv (fun x => keeps (s_all s1) (s_all x))); [|auto]. intros s3 ep s4 _ H3 E'. destruct (_ || _)%bool; [injection E' as <-; exact H3|]. intros x Hx. apply (run_keeps _ _ _ _ _ _ _ E'), H3. exact Hx. }
      revert E. destruct (get_backward_entities 1 rels e false) as [back|]; cbn [bind]; [|discriminate]. match goal with |- bind ?m _ = _ -> _ => destruct m as [s1|] eqn:E1 end; cbn [bind]; [|discriminate].
      destruct (get_backward_entities tf rels e true) as [deep|]; cbn [bind]; [|discriminate]. match goal with |- bind ?m _ = _ -> _ => destruct m as [s2|] eqn:E2 end; cbn [bind]; [|discriminate].
      match goal with |- bind ?m _ = _ -> _ => destruct m as [s3|] eqn:E3 end; cbn [bind]; [|discriminate]. destruct (get_forward_entities 1 rels e false) as [fwd|]; cbn [bind]; [|discriminate].
      match goal with |- bind ?m _ = _ -> _ => destruct m as [s4|] eqn:E4 end; cbn [bind]; [|discriminate]. match goal with |- bind ?m _ = _ -> _ => destruct m as [s5|] eqn:E5 end; cbn [bind]; [|discriminate].
      match goal with |- bind ?m _ = _ -> _ => destruct m as [s6|] eqn:E6 end; cbn [bind]; [|discriminate]. intros E7.
      apply (where_keeps _ _ _ E7), (transform_keeps _ _ _ _ _ E6). assert (keeps (s_all s4) (s_all s5)) as K5.
      { revert E5. apply (foldM_inv (fun x => keeps (s_all s4) (s_all x))); [|auto]. intros a ep b _ H3 E y Hy. destruct (skip_entity _ _ _ _); [injection E as <-; apply H3; exact Hy|]. apply (forward_keeps _ _ _ _ E), H3. exact Hy. }
      apply K5, (Hv _ _ _ E4), (transform_keeps _ _ _ _ _ E3). assert (keeps (s_all s1) (s_all s2)) as K2.
      { revert E2. apply (foldM_inv (fun x => keeps (s_all s1) (s_all x))); [|auto]. intros a ep b _ H3 E y Hy. destruct (skip_entity _ _ _ _); [injection E as <-; apply H3; exact Hy|]. apply (agg_keeps _ _ _ _ _ _ E), H3. exact Hy. }
      apply K2, (Hv _ _ _ E1). exact H0.
    Qed.

    (** entities not yet visited *)
    Variable U : list string.
    Hypothesis U_rels : forall r, In r rels -> In (r_pe r) U /\ In (r_ce r) U.
    Definition left_over (all : afeats) : list string := filter (fun e => match dget String.eqb e all with Some _ => false | None => true end) U.
    Lemma left_keeps a b : keeps a b -> List.length (left_over b) <= List.length (left_over a).
    Proof.
      intros H. unfold left_over. clear U_rels. induction U as [|e l IH]; cbn [filter]; [lia|]. specialize (H e). destruct (dget String.eqb e a), (dget String.eqb e b); cbn [List.length]; try lia. exfalso. apply H; [discriminate | reflexivity].
    Qed.
    Lemma left_visit e a b : In e U -> dget String.eqb e a = None -> dget String.eqb e b <> None -> keeps a b -> List.length (left_over b) < List.length (left_over a).
    Proof.
      intros He Ha Hb H. unfold left_over. clear U_rels. induction U as [|x l IH]; [destruct He|]. cbn [filter]. destruct He as [->|He].
      - rewrite Ha. destruct (dget String.eqb e b) eqn:Eb; [|contradiction]. cbn [List.length]. pose proof (left_keeps a b H) as Hk. unfold left_over in Hk.
        assert (List.length (filter (fun e => match dget String.eqb e b with Some _ => false | None => true end) l) <= List.length (filter (fun e => match dget String.eqb e a with Some _ => false | None => true end) l)); [|lia].
        clear - H. induction l as [|y l IH]; cbn [filter]; [lia|]. specialize (H y). destruct (dget String.eqb y a), (dget String.eqb y b); cbn [List.length]; try lia. exfalso. apply H; [discriminate | reflexivity].
      - specialize (IH He). pose proof (H x) as Hx. destruct (dget String.eqb x a), (dget String.eqb x b); cbn [List.length]; try lia. exfalso. apply Hx; [discriminate | reflexivity].
    Qed.
    Hypothesis acyclic : forall e, ~ reaches_cycle r_pe r_ce rels e.
    Lemma ends_one src dst fw e : ends (related_entities src dst fw 1 rels e false).
    Proof. cbn [related_entities]. apply ends_bind; [apply ends_mapM; intros r _; discriminate | intros; apply ends_ok]. Qed.
    Lemma one_In src dst fw e l ep : related_entities src dst fw 1 rels e false = Ok l -> In ep l -> exists r, In r rels /\ fst ep = dst r.
    Proof.
      cbn [related_entities]. intros H Hin. destruct (mapM _ _) as [subs|] eqn:Es; cbn [bind] in H; [|discriminate]. injection H as <-. apply in_concat in Hin as (x & Hx & Hin). destruct (mapM_In _ _ _ _ Es Hx) as (r & Hr & E). cbn [bind] in E. injection E as <-.
      apply filter_In in Hr as [Hr _]. destruct Hin as [<-|[]]. exists r. auto.
    Qed.
    Lemma run_ends fuel : forall e path md s, In e U -> dget String.eqb e (s_all s) = None -> List.length (left_over (s_all s)) <= fuel -> ends (run (S (List.length rels)) fuel e path md s).
    Proof.
      induction fuel as [|fuel IH]; intros e path md s He Hs Hf; cbn [run_dfs]; destruct (match md with Some m => Z.ltb m 0 | None => false end); try apply ends_ok.
      - exfalso. unfold left_over in Hf. assert (In e (filter (fun e => match dget String.eqb e (s_all s) with Some _ => false | None => true end) U)) as H by (apply filter_In; split; [exact He | rewrite Hs; reflexivity]). destruct (filter _ U); [destruct H | cbn in Hf; lia].
      - apply ends_bind; [apply ends_identity|]. intros all Ea.
        assert (keeps (s_all s) all) as K0 by (intros x Hx; apply (identity_keeps _ _ _ Ea), dset_keeps; exact Hx).
        assert (List.length (left_over all) <= fuel) as Hl.
        { pose proof (left_visit e (s_all s) all He Hs ltac:(apply (identity_keeps _ _ _ Ea); rewrite (dget_dset_same _ String.eqb_spec); discriminate) K0). lia. }
        set (P := fun s' : state => List.length (left_over (s_all s')) <= fuel).
        assert (forall (l : list (string * list edge)), (forall ep, In ep l -> In (fst ep) U) -> (forall s1, P s1 -> ends (foldM (fun s (ep : string * list edge) => if M_DFS.visited s (fst ep) || skip_entity A G path ep then Ok s else run (S (List.length rels)) fuel (fst ep) (path ++ snd ep) (lower_depth md) s) l s1)) /\
          (forall s1 s2, P s1 -> foldM (fun s (ep : string * list edge) => if M_DFS.visited s (fst ep) || skip_entity A G path ep then Ok s else run (S (List.length rels)) fuel (fst ep) (path ++ snd ep) (lower_depth md) s) l s1 = Ok s2 -> P s2)) as Hv.
        { intros l Hlu. assert (forall s1 ep s2, In ep l -> P s1 -> (if M_DFS.visited s1 (fst ep) || skip_entity A G path ep then Ok s1 else run (S (List.length rels)) fuel (fst ep) (path ++ snd ep) (lower_depth md) s1) = Ok s2 -> P s2) as Hp.
          { intros s1 ep s2 _ H1 E. destruct (_ || _)%bool; [injection E as <-; exact H1|]. pose proof (left_keeps _ _ (run_keeps _ _ _ _ _ _ _ E)). unfold P in *. lia. }
          split; [|intros s1 s2 H1; apply foldM_inv; [exact Hp | exact H1]]. intros s1 H1. apply (ends_foldM P); [|exact Hp | exact H1]. intros s2 ep Hep H2. destruct (M_DFS.visited s2 (fst ep)) eqn:Ev; cbn [orb]; [discriminate|]. destruct (skip_entity _ _ _ _); [discriminate|].
          apply IH; [apply Hlu; exact Hep | unfold M_DFS.visited in Ev; destruct (dget String.eqb (fst ep) (s_all s2)); [discriminate | reflexivity] | exact H2]. }
        apply ends_bind; [apply ends_one|]. intros back Eb. destruct (Hv back) as [V1 V2].
        { intros ep Hep. destruct (one_In _ _ _ _ _ _ Eb Hep) as (r & Hr & ->). apply U_rels. exact Hr. }
        apply ends_bind; [apply V1; exact Hl|]. intros s1 E1. apply (V2 (mkSt all (s_wheres s)) s1 Hl) in E1.
        apply ends_bind; [destruct (related_acyclic r_pe r_ce false rels e (acyclic e)) as [deep Ed]; unfold get_backward_entities; rewrite Ed; discriminate|]. intros deep _.
        apply ends_bind; [apply ends_foldM'; intros s2 ep _; destruct (skip_entity _ _ _ _); [discriminate | apply ends_build_agg]|]. intros s2 E2.
        assert (P s2) as P2.
        { revert E2. apply foldM_inv; [|exact E1]. intros a ep b _ Ha E. destruct (skip_entity _ _ _ _); [injection E as <-; exact Ha|]. pose proof (left_keeps _ _ (agg_keeps _ _ _ _ _ _ E)). unfold P in *. lia. }
        apply ends_bind; [apply ends_transform|]. intros s3 E3. assert (P s3) as P3 by (pose proof (left_keeps _ _ (transform_keeps _ _ _ _ _ E3)); unfold P in *; lia).
        apply ends_bind; [apply ends_one|]. intros fwd Ef. destruct (Hv fwd) as [V3 V4].
        { intros ep Hep. destruct (one_In _ _ _ _ _ _ Ef Hep) as (r & Hr & ->). apply U_rels. exact Hr. }
        apply ends_bind; [apply V3; exact P3|]. intros s4 E4. apply ends_bind; [apply ends_foldM'; intros s5 ep _; destruct (skip_entity _ _ _ _); [discriminate | apply ends_forward]|]. intros s5 _.
        apply ends_bind; [apply ends_transform|]. intros s6 _. apply ends_where.
    Qed.
    Lemma run_cycle tf fuel path md s s' : match md with Some m => Z.ltb m 0 | None => false end = false -> (forall f, get_backward_entities f rels (g_target A) true = Err OutOfFuel) -> run tf fuel (g_target A) path md s <> Ok s'.
    Proof.
      intros Hmd Hc. destruct fuel as [|fuel]; cbn [run_dfs]; rewrite Hmd; [discriminate|]. destruct (add_identity_features _ _ _ _ _ _ _); cbn [bind]; [|discriminate]. destruct (get_backward_entities 1 rels _ false); cbn [bind]; [|discriminate].
      match goal with |- bind ?m _ <> _ => destruct m as [s1|] end; cbn [bind]; [|discriminate]. rewrite Hc. discriminate.
    Qed.
  End Run.

  (** *** C29: without a cycle below the entities, the search ends: the number of relationships bounds its depth, for every
      max_depth, all primitives and all options *)
  Theorem C29_terminates_partial A ret fuel : (forall e, ~ reaches_cycle r_pe r_ce rels e) -> S (2 * List.length rels) <= fuel ->
    dfs A ret (S (List.length rels)) fuel <> Err OutOfFuel.
  Proof.
    intros Hac Hfuel. change (ends (dfs A ret (S (List.length rels)) fuel)). unfold build_features. destruct (negb _); [discriminate|]. destruct (mem_str _ _); [discriminate|]. apply ends_bind.
    - unfold generate_all_primitive_options. apply ends_bind; [|intros; apply ends_ok]. unfold init_primitive_options. apply ends_foldM'. intros acc [keys spec] _. unfold init_group. apply ends_bind.
      + cbn [snd fst]. destruct spec; [discriminate|]. apply ends_bind; [|intros; apply ends_ok]. apply ends_mapM. intros k _. destruct (arity_of k); [|discriminate]. destruct (Nat.eqb _ _); discriminate.
      + intros os _. apply ends_foldM'. intros a k _. destruct (dget _ _ _); discriminate.
    - intros G _. apply ends_bind.
      + apply (run_ends A G (g_target A :: flat_map (fun r => [r_pe r; r_ce r]) rels)).
        * intros r Hr. split; right; apply in_flat_map; exists r; split; cbn; auto.
        * exact Hac.
        * left. reflexivity.
        * reflexivity.
        * unfold left_over. cbn [s_all dget]. rewrite (proj2 (forallb_filter_id _ _)) || idtac. assert (forall l : list string, List.length (filter (fun _ => true) l) = List.length l) as Hx by (intros l; induction l; cbn; auto).
          rewrite Hx. cbn [List.length]. assert (List.length (flat_map (fun r => [r_pe r; r_ce r]) rels) = 2 * List.length rels) as -> by (clear; induction rels as [|r l IH]; cbn [flat_map app List.length]; lia). lia.
      + intros s _. destruct (dget _ _ _) as [d|]; [|discriminate]. unfold finish. apply ends_bind; [|intros; apply ends_ok]. unfold sort_by_depth. apply ends_bind; [|intros; apply ends_ok]. apply ends_mapM. intros f _. apply ends_bind; [apply ends_depth | intros; apply ends_ok].
  Qed.
  (** and a cycle below the target means no result, however long the search runs *)
  Theorem C29_cycle_no_result A ret tf fuel fs : reaches_cycle r_pe r_ce rels (g_target A) -> dfs A ret tf fuel <> Ok fs.
  Proof.
    intros Hc. unfold build_features. destruct (negb _); [discriminate|]. destruct (mem_str _ _); [discriminate|]. destruct (generate_all_primitive_options _ _ _ _ _ _) as [G|]; cbn [bind]; [|discriminate].
    destruct (match depth_limit entities A with Some m => Z.ltb m 0 | None => false end) eqn:Emd.
    - destruct fuel; cbn [run_dfs]; rewrite Emd; cbn [bind s_all dget]; discriminate.
    - match goal with |- bind ?m _ <> _ => destruct m as [s|] eqn:E end; cbn [bind]; [|discriminate]. exfalso. eapply run_cycle; [exact Emd | | exact E]. intros f. apply C18_backward_entities_deep_diverges. exact Hc.
  Qed.
End Term.

(** the property as stated is false: employees with a manager, at every depth and whatever the number of steps *)
Definition e_rels := [mkRel "employees" "id" "employees" "manager"].
Theorem C29_refuted : forall d tf fuel, (0 <= d)%Z -> w_dfs ["employees"] (w_vars [("employees", [("id", YIndex); ("manager", YId)])]) (w_types [("employees", [("id", YIndex); ("manager", YId)])]) (fun _ _ => []) e_rels
  (w_args "employees" [] [] [] d [] [] []) None tf fuel = Err OutOfFuel.
Proof.
  intros d tf fuel Hd. unfold w_dfs, build_features. cbn [g_target w_args mem_str existsb String.eqb Ascii.eqb Bool.eqb orb negb g_ignore_e].
  change (mem_str "employees" ["employees"]) with true. change (mem_str "employees" []) with false. cbn [negb bind generate_all_primitive_options init_primitive_options g_options w_args foldM fold_left g_trans g_aggs g_wheres g_groups app].
  assert (exists m, depth_limit ["employees"] (w_args "employees" [] [] [] d [] [] []) = Some m /\ (m <? 0)%Z = false) as (m & -> & Hm).
  { unfold depth_limit. cbn [g_depth w_args List.length Nat.eqb andb]. destruct (Z.eqb_spec d (-1)); [lia|]. destruct (Z.ltb_spec 1 d); [exists 1%Z | exists d]; (split; [reflexivity | apply Z.ltb_ge; lia]). }
  destruct fuel as [|fuel]; cbn [run_dfs]; rewrite Hm; [reflexivity|].
  match goal with |- bind (bind ?m _) _ = _ => destruct m as [all|] eqn:Ea end; [|vm_compute in Ea; discriminate]. cbn [bind].
  match goal with |- bind (bind ?m _) _ = _ => destruct m as [back|] eqn:Eb end; [|vm_compute in Eb; discriminate]. vm_compute in Eb. injection Eb as <-. cbn [bind foldM fst snd].
  assert (forall x, dget String.eqb "employees" all = Some x -> M_DFS.visited (mkSt all []) "employees" = true) as Hv by (intros x Hx; unfold M_DFS.visited; cbn [s_all]; rewrite Hx; reflexivity).
  destruct (dget String.eqb "employees" all) as [x|] eqn:Ex; [|vm_compute in Ea; injection Ea as <-; discriminate]. cbn [s_wheres]. rewrite (Hv x eq_refl). cbn [orb bind].
  rewrite C18_backward_entities_deep_diverges; [reflexivity|]. exists "employees", [], e_rels. split; [constructor|]. split; [discriminate|]. apply (chain_cons r_pe r_ce e_rels (mkRel "employees" "id" "employees" "manager") []); [left; reflexivity | constructor].
Qed.

(** the schema of the examples has no cycle *)
Example C29_nonvacuous : (forall e, ~ reaches_cycle r_pe r_ce d_rels e) /\ match d_run (w_args "customers" [w_sum] [w_abs] [w_sum] (-1) [] [] []) None with Ok fs => Nat.leb 5 (List.length fs) | Err _ => false end = true.
Proof.
  split.
  - assert (forall a p b, chain r_pe r_ce d_rels a p b -> p <> [] -> (a = "customers" \/ a = "devices") /\ b = "sessions") as H.
    { induction 1 as [a|r p b Hr Hc IH]; [contradiction|]. intros _. destruct p as [|r' p].
      - inversion Hc; subst. destruct Hr as [<-|[<-|[]]]; cbn; auto.
      - destruct (IH ltac:(discriminate)) as [Ha ->]. destruct Hr as [<-|[<-|[]]]; cbn in *; destruct Ha; discriminate. }
    intros e (b & p & q & _ & Hne & Hq). destruct (H _ _ _ Hq Hne) as [[-> | ->] [=]].
  - vm_compute. reflexivity.
Qed.

Print Assumptions C29_terminates_partial.
Print Assumptions C29_cycle_no_result.
Print Assumptions C29_refuted.
