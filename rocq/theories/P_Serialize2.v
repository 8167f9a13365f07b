(** C22: whatever a saved description contains, loading it gives only features the constructors accept. *)
From Verif Require Import Base BaseFacts M_Schema M_Feature M_Types M_Serialize S_Calc S_Serialize L_DFS L_Value2 P_Serialize X_Demo.
Local Open Scope string_scope.

(** a relationship between columns of the entity set that ends in the index of the parent (or the parent has none) *)
Definition joins (vtypes : string -> string -> option vtyp) (index_of : string -> option string) (r : relationship) : Prop :=
  vtypes (r_pe r) (r_pv r) <> None /\ vtypes (r_ce r) (r_cv r) <> None /\ (index_of (r_pe r) = None \/ index_of (r_pe r) = Some (r_pv r)).

Section Loading.
  Variables (args : Type) (construct : cls -> args -> res prim).
  Variables (targs : Type) (td_load : targs -> res tdelta).
  Variables (p_ret : prim -> option vtyp) (p_inputs : prim -> option (list (list vtyp))) (vtypes : string -> string -> option vtyp).
  Variables (rels : list relationship) (index_of : string -> option string) (prev_ok : string -> tdelta -> res unit) (classes : ctree).
  Notation made := (made p_ret p_inputs vtypes rels prev_ok).
  Notation joins := (joins vtypes index_of).
  Definition good (f : feat) : Prop := made f /\ forall g r, reaches f g -> In r (frels g) -> joins r.

  Lemma good_node f : made f -> (forall d, In d (fdeps f) -> good d) -> (forall r, In r (frels f) -> joins r) -> good f.
  Proof.
    intros Hm Hd Hr. split; [exact Hm|]. intros g r Hg Hin. inversion Hg; subst; [apply Hr; exact Hin|].
    eapply (proj2 (Hd _ ltac:(eassumption))); eassumption.
  Qed.
  Lemma mk_rel_joins r r' : mk_rel vtypes index_of r = Ok r' -> r' = r /\ joins r.
  Proof.
    unfold mk_rel, joins, is_var. destruct (vtypes (r_pe r) (r_pv r)) eqn:E1; [|discriminate]. destruct (vtypes (r_ce r) (r_cv r)) eqn:E2; [|discriminate]. cbn [andb negb].
    destruct (index_of (r_pe r)) as [i|].
    - destruct (String.eqb_spec i (r_pv r)) as [->|N]; [|discriminate]. intros [= <-]. split; [reflexivity|]. split; [discriminate|]. split; [discriminate | right; reflexivity].
    - intros [= <-]. split; [reflexivity|]. split; [discriminate|]. split; [discriminate | left; reflexivity].
  Qed.
  Lemma mk_rels_joins l l' : mapM (mk_rel vtypes index_of) l = Ok l' -> forall r, In r l' -> joins r.
  Proof. intros H r Hr. destruct (mapM_In_Ok' _ _ _ _ H Hr) as (a & Ha & _). apply mk_rel_joins in Ha as [-> Ha]. exact Ha. Qed.

  Definition all_good (d : list (string * feat)) : Prop := forall n f, dget String.eqb n d = Some f -> good f.
  Lemma deps_good d n f : all_good d -> deps_get n d = Ok f -> good f.
  Proof. intros H. unfold deps_get. destruct (dget String.eqb n d) as [g|] eqn:E; [|discriminate]. intros [= <-]. exact (H n g E). Qed.
  Lemma deps_all_good d ns fs : all_good d -> mapM (fun n => deps_get n d) ns = Ok fs -> forall f, In f fs -> good f.
  Proof. intros H Hm f Hf. destruct (mapM_In_Ok' _ _ _ _ Hm Hf) as (n & Hn & _). exact (deps_good _ _ _ H Hn). Qed.
  Lemma set_good d n f : all_good d -> good f -> all_good (dset String.eqb n f d).
  Proof.
    intros H Hf m g. destruct (String.eqb_spec n m) as [->|N]; [rewrite (dget_dset_same _ String.eqb_spec); intros [= <-]; exact Hf|].
    rewrite (dget_dset_other _ String.eqb_spec) by congruence. apply H.
  Qed.

  Lemma from_dictionary_good ty a deps s s' f : all_good deps ->
    from_dictionary args construct targs td_load p_ret p_inputs vtypes rels index_of prev_ok ty a deps s = Ok (s', f) -> good f.
  Proof.
    intros Hd. unfold from_dictionary.
    destruct (String.eqb ty "IdentityFeature").
    { destruct a; try discriminate. destruct (mk_ident vtypes e v (Some name)) as [f'|] eqn:E; [|discriminate]. cbn [bind]. intros [= _ <-]. pose proof E as E'. unfold mk_ident in E. destruct (is_var vtypes e v); [|discriminate]. injection E as <-.
      apply good_node; [constructor; exact E' | intros d [] | intros r []]. }
    destruct (String.eqb ty "DirectFeature").
    { destruct a; try discriminate. destruct (deps_get base deps) as [b|] eqn:Eb; [|discriminate]. cbn [bind]. destruct (mk_rel vtypes index_of r) as [r'|] eqn:Er; [|discriminate]. cbn [bind].
      destruct (mk_direct r' b (Some name)) as [f'|] eqn:E; [|discriminate]. cbn [bind]. intros [= _ <-]. apply mk_rel_joins in Er as [-> Hj]. pose proof (deps_good _ _ _ Hd Eb) as Hb. pose proof E as E'. unfold mk_direct in E.
      destruct (String.eqb (fentity b) (r_pe r)); [|discriminate]. injection E as <-. apply good_node; [constructor; [apply Hb | exact E'] | intros d [<-|[]]; exact Hb | intros x [<-|[]]; exact Hj]. }
    destruct (String.eqb ty "AggregationFeature").
    { destruct a; try discriminate. destruct (mapM (fun n => deps_get n deps) bases) as [bs|] eqn:Eb; [|discriminate]. cbn [bind]. destruct (mapM (mk_rel vtypes index_of) path) as [pa|] eqn:Ep; [|discriminate]. cbn [bind].
      destruct pa as [|r0 pa]; [discriminate|]. destruct (deserialize_primitive args construct p s) as [[s1 p1]|]; [|discriminate]. cbn [bind fst snd].
      destruct (match prev with Some d => do d0 <- td_load d; Ok (Some d0) | None => Ok None end) as [pv|]; [|discriminate]. cbn [bind].
      destruct (match wh with Some n => do w <- deps_get n deps; Ok (Some w) | None => Ok None end) as [w|] eqn:Ew; [|discriminate]. cbn [bind].
      destruct (mk_agg p_ret p_inputs vtypes rels prev_ok p1 bs (r0 :: pa) w pv (Some name)) as [f'|] eqn:E; [|discriminate]. cbn [bind]. intros [= _ <-].
      pose proof (deps_all_good _ _ _ Hd Eb) as Hb. pose proof (mk_rels_joins _ _ Ep) as Hp.
      assert (forall x, w = Some x -> good x) as Hw.
      { intros x ->. destruct wh as [n|]; [|discriminate]. destruct (deps_get n deps) as [y|] eqn:Ey; [|discriminate]. cbn [bind] in Ew. injection Ew as ->. exact (deps_good _ _ _ Hd Ey). }
      pose proof E as E'. unfold mk_agg in E. destruct (check_bases bs); [|discriminate]. cbn [bind] in E.
      destruct (negb _); [discriminate|]. destruct (has_unique_forward_path _ _ _) as [u|]; [|discriminate]. cbn [bind] in E. destruct (match w with Some _ => _ | None => _ end); [|discriminate]. cbn [bind] in E. destruct (match pv with Some _ => _ | None => _ end); [|discriminate]. cbn [bind] in E.
      destruct (check_types _ _ _ _ _); [|discriminate]. injection E as <-. apply good_node; [constructor; [intros b Hin; apply Hb; exact Hin | intros x Hx; apply Hw; exact Hx | exact E'] | | exact Hp].
      intros d Hin. unfold fdeps in Hin. cbn [fbases fwhere] in Hin. apply in_app_iff in Hin as [Hin|Hin]; [apply Hb; exact Hin|]. destruct w as [x|]; [|destruct Hin]. destruct Hin as [<-|[]]. apply Hw. reflexivity. }
    destruct (String.eqb ty "TransformFeature").
    { destruct a; try discriminate. destruct (mapM (fun n => deps_get n deps) bases) as [bs|] eqn:Eb; [|discriminate]. cbn [bind]. destruct (deserialize_primitive args construct p s) as [[s1 p1]|]; [|discriminate]. cbn [bind fst snd].
      destruct (mk_trans p_ret p_inputs vtypes p1 bs (Some name)) as [f'|] eqn:E; [|discriminate]. cbn [bind]. intros [= _ <-]. pose proof (deps_all_good _ _ _ Hd Eb) as Hb. pose proof E as E'. unfold mk_trans in E. destruct (check_bases bs); [|discriminate]. cbn [bind] in E.
      destruct (check_types _ _ _ _ _); [|discriminate]. injection E as <-. apply good_node; [constructor; [intros b Hin; apply Hb; exact Hin | exact E'] | | intros r []]. intros d Hin. unfold fdeps in Hin. cbn [fbases fwhere] in Hin. rewrite app_nil_r in Hin. apply Hb; exact Hin. }
    destruct (String.eqb ty "GroupByTransformFeature").
    { destruct a; try discriminate. destruct (mapM (fun n => deps_get n deps) bases) as [bs|] eqn:Eb; [|discriminate]. cbn [bind]. destruct (deserialize_primitive args construct p s) as [[s1 p1]|]; [|discriminate]. cbn [bind fst snd].
      destruct (deps_get g deps) as [gf|] eqn:Eg; [|discriminate]. cbn [bind].
      destruct (mk_group p_ret p_inputs vtypes p1 bs gf (Some name)) as [f'|] eqn:E; [|discriminate]. cbn [bind]. intros [= _ <-]. pose proof (deps_all_good _ _ _ Hd Eb) as Hb. pose proof (deps_good _ _ _ Hd Eg) as Hg. pose proof E as E'. unfold mk_group in E.
      destruct (negb _); [discriminate|]. destruct (check_bases _); [|discriminate]. cbn [bind] in E. destruct (check_types _ _ _ _ _); [|discriminate]. injection E as <-.
      apply good_node; [constructor; [intros b Hin; apply Hb; exact Hin | apply Hg | exact E'] | | intros r []]. intros d Hin. unfold fdeps in Hin. cbn [fbases fwhere] in Hin. rewrite app_nil_r in Hin. apply in_app_iff in Hin as [Hin|[<-|[]]]; [apply Hb; exact Hin | exact Hg]. }
    destruct (String.eqb ty "FeatureOutputSlice"); [|discriminate].
    destruct a; try discriminate. destruct (deps_get base deps) as [b|] eqn:Eb; [|discriminate]. cbn [bind]. destruct (mk_slice b n (Some name)) as [f'|] eqn:E; [|discriminate]. cbn [bind]. intros [= _ <-].
    pose proof (deps_good _ _ _ Hd Eb) as Hb. pose proof E as E'. unfold mk_slice in E. destruct (_ && _)%bool; [|discriminate]. injection E as <-. apply good_node; [constructor; [apply Hb | exact E'] | intros d [<-|[]]; exact Hb | intros r []].
  Qed.

  Notation dstate := (dstate).
  Lemma deserialize_good defs fuel : forall n s s' f, all_good (ds_memo s) ->
    deserialize_feature args construct targs td_load p_ret p_inputs vtypes rels index_of prev_ok defs fuel n s = Ok (s', f) -> all_good (ds_memo s') /\ good f.
  Proof.
    induction fuel as [|fuel IH]; intros n s s' f Hs; cbn [deserialize_feature].
    - destruct (dget String.eqb n (ds_memo s)) as [g|] eqn:E; [|discriminate]. intros [= <- <-]. split; [exact Hs | exact (Hs n g E)].
    - destruct (dget String.eqb n (ds_memo s)) as [g|] eqn:E; [intros [= <- <-]; split; [exact Hs | exact (Hs n g E)]|]. clear E.
      destruct (dget String.eqb n defs) as [fd|]; [|discriminate].
      destruct (foldM _ _ _) as [[s1 deps]|] eqn:Ef; [|discriminate]. cbn [bind fst snd].
      assert (all_good (ds_memo s1) /\ all_good deps) as [H1 H2].
      { apply (foldM_inv (fun sd : M_Serialize.dstate * list (string * feat) => all_good (ds_memo (fst sd)) /\ all_good (snd sd))) in Ef; [exact Ef | | split; [exact Hs | intros m g; discriminate]].
        intros [a b] d sd' _ [Ha Hb] Hstep. cbn [fst snd] in *. destruct (deserialize_feature _ _ _ _ _ _ _ _ _ _ _ _ d a) as [[a' g]|] eqn:Ed; [|discriminate]. cbn [bind fst snd] in Hstep. injection Hstep as <-. cbn [fst snd].
        destruct (IH _ _ _ _ Ha Ed) as [Ha' Hg]. split; [exact Ha' | apply set_good; assumption]. }
      destruct (from_dictionary _ _ _ _ _ _ _ _ _ _ _ _ _ _) as [[ps g]|] eqn:Eg; [|discriminate]. cbn [bind fst snd]. intros [= <- <-]. cbn [ds_memo].
      pose proof (from_dictionary_good _ _ _ _ _ _ H2 Eg) as Hg. split; [apply set_good; assumption | exact Hg].
  Qed.
  Lemma to_list_good defs fuel ns : forall s s' fs, all_good (ds_memo s) ->
    to_list args construct targs td_load p_ret p_inputs vtypes rels index_of prev_ok defs fuel ns s = Ok (s', fs) -> forall f, In f fs -> good f.
  Proof.
    induction ns as [|n ns IH]; intros s s' fs Hs; cbn [to_list]; [intros [= _ <-] f []|].
    destruct (deserialize_feature _ _ _ _ _ _ _ _ _ _ _ _ _ _) as [[s1 g]|] eqn:E; [|discriminate]. cbn [bind fst snd].
    destruct (to_list _ _ _ _ _ _ _ _ _ _ _ _ _ _) as [[s2 gs]|] eqn:El; [|discriminate]. cbn [bind fst snd]. intros [= _ <-] f.
    destruct (deserialize_good _ _ _ _ _ _ Hs E) as [H1 Hg]. intros [<-|Hf]; [exact Hg | exact (IH _ _ _ H1 El f Hf)].
  Qed.

  (** *** For every saved description, whoever wrote it: if loading succeeds, it gives one feature per listed name, every
      feature is one the public constructors accept with these very arguments, and every relationship used anywhere inside
      joins existing columns and ends in the parent's index. *)
  Theorem C22_loaded_valid : forall fuel sv built fs,
    load_features args construct targs td_load p_ret p_inputs vtypes rels index_of prev_ok classes fuel sv = Ok (built, fs) ->
    List.length fs = List.length (sv_list _ _ sv) /\
    forall f, In f fs -> made f /\ forall g r, reaches f g -> In r (frels g) -> joins r.
  Proof.
    intros fuel sv built fs. unfold load_features. destruct (to_list _ _ _ _ _ _ _ _ _ _ _ _ _ _) as [[s2 gs]|] eqn:El; [|discriminate]. cbn [bind fst snd]. intros [= _ <-]. split.
    - clear -El. revert El. generalize (mkDs [] [] (ps_new classes)) as s. revert s2 gs. induction (sv_list args targs sv) as [|n ns IH]; intros s2 gs s; cbn [to_list]; [intros [= _ <-]; reflexivity|].
      destruct (deserialize_feature _ _ _ _ _ _ _ _ _ _ _ _ _ _) as [[s1 g]|]; [|discriminate]. cbn [bind fst snd]. destruct (to_list _ _ _ _ _ _ _ _ _ _ _ _ _ _) as [[s3 gs3]|] eqn:E3; [|discriminate]. cbn [bind fst snd]. intros [= _ <-]. cbn [List.length]. f_equal. exact (IH _ _ _ E3).
    - intros f Hf. refine (to_list_good _ _ _ _ _ _ _ El f Hf). intros n g; discriminate.
  Qed.
End Loading.

(** Non-vacuity: a hand-written description with a direct feature loads; with the parent's other column in the relationship,
    or with a name that is not defined, it is rejected. *)
Definition hand (r : relationship) (list : list string) : saved unit tdelta :=
  mkSaved unit tdelta list
    [("a", mkFd unit tdelta "IdentityFeature" [] (GIdent unit tdelta "dev" "sess" "dev"));
     ("b", mkFd unit tdelta "DirectFeature" ["a"] (GDirect unit tdelta "d" "a" r))].
Example C22_loaded_nonvacuous :
  dload 3 (hand (mkRel "sess" "id" "event" "sid") ["b"; "a"]) = Ok (["a"; "b"], [FDirect (mkRel "sess" "id" "event" "sid") (FIdent "sess" "dev" (Some "dev")) (Some "d"); FIdent "sess" "dev" (Some "dev")]) /\
  dload 3 (hand (mkRel "sess" "dev" "event" "sid") ["b"; "a"]) = Err AttributeError /\
  dload 3 (hand (mkRel "cust" "id" "sess" "cid") ["b"]) = Err AssertionError /\
  dload 3 (hand (mkRel "sess" "id" "event" "sid") ["c"]) = Err KeyError.
Proof. split; [|split; [|split]]; vm_compute; reflexivity. Qed.

Print Assumptions C22_loaded_valid.
