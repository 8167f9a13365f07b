(** Lemmas about deep feature synthesis: how every generated feature came about. *)
From Coq Require Import Permutation.
From Verif Require Import Base BaseFacts M_Schema M_Feature M_Types M_Serialize M_Match M_DFS S_Schema S_Calc S_Match S_DFS L_Schema P_Depth P_Match.
Local Open Scope string_scope.
Local Open Scope list_scope.

Lemma mapM_In {A B} (f : A -> res B) l l' y : mapM f l = Ok l' -> In y l' -> exists x, In x l /\ f x = Ok y.
Proof. intros H Hy. apply mapM_Ok_Forall2 in H. destruct (Forall2_In_r _ _ _ y H Hy) as (x & Hx & E). exists x. auto. Qed.
Lemma foldM_inv {A S} (P : S -> Prop) (f : S -> A -> res S) l : (forall s a s', In a l -> P s -> f s a = Ok s' -> P s') -> forall s s', P s -> foldM f l s = Ok s' -> P s'.
Proof.
  induction l as [|a l IH]; intros Hf s s' Hs; cbn [foldM]; [intros [= <-]; exact Hs|]. destruct (f s a) as [s1|] eqn:E; cbn [bind]; [|discriminate].
  apply IH; [intros s2 b s3 Hb; apply Hf; right; exact Hb | eapply Hf; [left; reflexivity | exact Hs | exact E]].
Qed.
Lemma In_dset {V} (k : string) (v : V) d n x : In (n, x) (dset String.eqb k v d) -> (n = k /\ x = v) \/ In (n, x) d.
Proof.
  induction d as [|[k' v'] d IH]; cbn [dset]; [intros [[= <- <-]|[]]; auto|]. destruct (String.eqb_spec k k') as [<-|Hk].
  - intros [[= <- <-]|H]; [auto | right; right; exact H].
  - intros [[= <- <-]|H]; [right; left; reflexivity|]. destruct (IH H) as [?|?]; [auto | right; right; assumption].
Qed.
Lemma dget_dset_cases {V} (k k' : string) (v x : V) d : dget String.eqb k' (dset String.eqb k v d) = Some x -> (k' = k /\ x = v) \/ dget String.eqb k' d = Some x.
Proof.
  destruct (String.eqb_spec k' k) as [->|Hk]; [rewrite (dget_dset_same _ String.eqb_spec); intros [= <-]; auto | rewrite (dget_dset_other _ String.eqb_spec) by exact Hk; auto].
Qed.

Section DFS.
  Variable variables : string -> list string.
  Variable vtypes : string -> string -> option vtyp.
  Variable interesting : string -> string -> list val.
  Variable rels : list relationship.
  Variable p_ret : prim -> option vtyp.
  Variable p_inputs : prim -> option (list (list vtyp)).
  Variable attr : prim -> pattr.
  Variable subc : nat -> nat -> bool.
  Variable eq_prim : val -> prim.
  Variable lower : string -> string.
  Variable ordF : list feat -> list feat.
  Hypothesis ordF_perm : forall l, Permutation (ordF l) l.
  Variable A : dfs_args.
  Variable G : gopts.
  (** the limit of the whole run *)
  Variable D : option Z.
  Notation ftype := (ftype p_ret vtypes).
  Notation fname := (fname rels).
  Notation funique := (funique rels).
  Notation mk_agg := (mk_agg p_ret p_inputs vtypes rels (fun _ _ => Ok tt)).
  Notation mk_trans := (mk_trans p_ret p_inputs vtypes).
  Notation mk_group := (mk_group p_ret p_inputs vtypes).
  Notation mk_ident := (mk_ident vtypes).
  Notation is_valid_match := (is_valid_match rels p_ret vtypes).
  Notation handle_new_feature := (handle_new_feature rels A).
  Notation add_all := (add_all rels A).
  Notation opts := (opts attr G).
  Notation features_by_type := (features_by_type vtypes rels p_ret A).
  Notation get_matching_inputs := (get_matching_inputs vtypes rels p_ret attr lower ordF A G).
  Notation run_dfs := (run_dfs variables vtypes interesting rels p_ret p_inputs attr subc eq_prim lower ordF A G).
  Notation build_transform_features := (build_transform_features vtypes rels p_ret p_inputs attr lower ordF A G).
  Notation build_forward_features := (build_forward_features vtypes rels p_ret A).
  Notation agg_one := (agg_one vtypes rels p_ret p_inputs attr subc ordF A).
  Notation build_agg_features := (build_agg_features vtypes rels p_ret p_inputs attr subc lower ordF A G).
  Notation build_where_clauses := (build_where_clauses vtypes interesting rels p_ret p_inputs eq_prim).

  (** entities the search may visit *)
  Definition open_entity (e : string) : Prop := e = g_target A \/ ~ In e (g_ign_e G).
  (** depth, counted down to the seeds, at most the limit minus [k] *)
  Definition within (md : option Z) (k : Z) (f : feat) : Prop :=
    match md with None => True | Some d => exists n, pool_depth rels A f = Ok n /\ (Z.of_nat n <= d - k)%Z end.
  (** the limit at an entity: all but the target are visited at least one level down *)
  Definition lim (e : string) : option Z := if String.eqb e (g_target A) then D else lower_depth D.
  Definition is_where (e : string) (w : feat) (src : feat) : Prop :=
    exists v nm x, src = FIdent e v nm /\ In x (interesting e v) /\ mk_trans (eq_prim x) [src] None = Ok w.

  Inductive gen : feat -> Prop :=
  | gen_seed f : In f (g_seeds A) -> open_entity (fentity f) -> gen f
  | gen_ident e v : open_entity e -> (forall l, lim e = Some l -> (0 <= l)%Z) -> In v (variables e) -> ~ In v (dd_get e (g_ign_v G)) -> vtypes e v <> None -> gen (FIdent e v None)
  | gen_slice b i : gen b -> 1 < fnout b -> i < fnout b -> gen (FSlice b i None)
  | gen_agg p m path e ce f : In p (g_aggs A) -> open_entity e -> backward_chain rels e path ce -> path <> [] -> ~ In ce (g_ign_e G) ->
      ignore_entity_for_primitive (opts p) ce false = false ->
      (forall b, In b m -> gen b /\ fentity b = ce /\ within (lim e) 1 b /\ direct_of_entity b e = false /\ feature_in_relationship_path (map (fun r => (false, r)) path) b = false) ->
      is_valid_match (opts p) false m = true /\ takes vtypes p_ret p_inputs p m -> check_stacking attr subc p m = Ok true ->
      mk_agg p m path None None None = Ok f -> gen f
  | gen_agg_where p m path e ce w src f : In p (g_aggs A) -> open_entity e -> backward_chain rels e path ce -> path <> [] -> ~ In ce (g_ign_e G) ->
      ignore_entity_for_primitive (opts p) ce false = false ->
      (forall b, In b m -> gen b /\ fentity b = ce /\ within (lim e) 1 b /\ direct_of_entity b e = false /\ feature_in_relationship_path (map (fun r => (false, r)) path) b = false) ->
      is_valid_match (opts p) false m = true /\ takes vtypes p_ret p_inputs p m -> check_stacking attr subc p m = Ok true ->
      is_where ce w src -> gen src -> count_wheres rels m < g_limit A -> (exists q, In q (g_wheres A) /\ subc (a_class (attr p)) (a_class (attr q)) = true) ->
      mk_agg p m path (Some w) None None = Ok f -> gen f
  | gen_trans p m e f : In p (g_trans A) -> open_entity e -> ignore_entity_for_primitive (opts p) e false = false ->
      (forall b, In b m -> gen b /\ fentity b = e /\ within (lim e) 1 b) -> is_valid_match (opts p) false m = true /\ takes vtypes p_ret p_inputs p m -> usable attr m = true ->
      mk_trans p m None = Ok f -> gen f
  | gen_group p m g e f : In p (g_groups A) -> open_entity e -> ignore_entity_for_primitive (opts p) e true = false ->
      (forall b, In b m -> gen b /\ fentity b = e /\ within (lim e) 1 b) -> is_valid_match (opts p) false m = true /\ takes vtypes p_ret p_inputs p m -> usable attr m = true ->
      gen g -> fentity g = e -> within (lim e) 1 g /\ (existsb (fun o => has_key e (o_inc_gv o)) (opts p) = false -> issub (ftype g) YId = true) -> is_valid_match (opts p) true [g] = true ->
      mk_group p m g None = Ok f -> gen f
  | gen_direct r b f : In r rels -> open_entity (r_ce r) -> ~ In (r_pe r) (g_ign_e G) -> gen b -> fentity b = r_pe r -> within (lim (r_ce r)) 0 b /\ feature_in_relationship_path [(true, r)] b = false ->
      mk_direct r b None = Ok f -> gen f.

  (** single outputs of a feature are never kept, unless given as seeds *)
  Definition stored (f : feat) : Prop := gen f /\ ((exists b i nm, f = FSlice b i nm) -> In f (g_seeds A)).
  Definition inv_all (all : afeats) : Prop :=
    forall e d, dget String.eqb e all = Some d -> open_entity e /\ NoDup (map fst d) /\ forall n f, In (n, f) d -> n = funique f /\ fentity f = e /\ stored f.
  Definition inv_wheres (ws : list (string * list feat)) : Prop :=
    forall e l w, dget String.eqb e ws = Some l -> In w l -> exists src, is_where e w src /\ gen src.
  Definition inv (s : state) : Prop := inv_all (s_all s) /\ inv_wheres (s_wheres s).
  (** entities already visited stay visited *)
  Definition keeps (a b : afeats) : Prop := forall e, dget String.eqb e a <> None -> dget String.eqb e b <> None.
  Definition mdle (e : string) (md : option Z) : Prop := match lim e with None => True | Some d => exists m, md = Some m /\ (m <= d)%Z end.

  Lemma handle_inv f all all' : inv_all all -> stored f -> handle_new_feature f all = Ok all' -> inv_all all'.
  Proof.
    intros Hi Hf. unfold M_DFS.handle_new_feature. destruct (dget String.eqb (fentity f) all) as [d|] eqn:Ed; [|discriminate]. destruct (Hi _ _ Ed) as (Ho & Hn & Hd).
    match goal with |- (if ?c then _ else _) = _ -> _ => destruct c end; intros [= <-]; [exact Hi|].
    intros e d' Hd'. destruct (dget_dset_cases _ _ _ _ _ Hd') as [[-> ->]|H]; [|apply Hi; exact H]. split; [exact Ho|]. split; [apply (dset_NoDup _ String.eqb_spec); exact Hn|].
    intros n x Hx. destruct (In_dset _ _ _ _ _ Hx) as [[-> ->]|Hx']; [auto | apply Hd; exact Hx'].
  Qed.
  Lemma add_all_inv fs all all' : inv_all all -> (forall f, In f fs -> stored f) -> add_all fs all = Ok all' -> inv_all all'.
  Proof. intros Hi Hf. unfold M_DFS.add_all. apply foldM_inv; [|exact Hi]. intros s f s' Hin Hs E. eapply handle_inv; [exact Hs | apply Hf; exact Hin | exact E]. Qed.

  Lemma within_mono e md k f : mdle e md -> within md k f -> within (lim e) k f.
  Proof. unfold mdle, within. destruct (lim e) as [d|]; [|auto]. intros (m & -> & Hm) (n & E & Hn). exists n. split; [exact E | lia]. Qed.
  Lemma mdle_lower e e' md : mdle e md -> mdle e' (lower_depth md).
  Proof. unfold mdle, lim. destruct (String.eqb e _), (String.eqb e' _), D as [d|]; cbn [lower_depth option_map]; auto; intros (m & -> & Hm); exists (m - 1)%Z; (split; [reflexivity | lia]). Qed.
  Lemma mk_agg_eq p m path wh prev nm f : mk_agg p m path wh prev nm = Ok f -> m <> [] /\ exists u, f = FAgg p m path u wh prev nm.
  Proof.
    unfold M_Serialize.mk_agg. destruct m as [|b m]; [discriminate|]. destruct (check_bases _) as [|]; cbn [bind]; [|discriminate]. destruct path as [|r path]; [discriminate|]. destruct (negb _); [discriminate|].
    destruct (has_unique_forward_path _ _ _) as [u|]; cbn [bind]; [|discriminate]. intros H. split; [discriminate|]. exists u. destruct wh; [destruct (String.eqb _ _); [|discriminate]|]; cbn [bind] in H; destruct prev; cbn [bind] in H; destruct (check_types _ _ _ _); congruence.
  Qed.
  Lemma mk_trans_eq p m nm f : mk_trans p m nm = Ok f -> m <> [] /\ f = FTrans p m nm.
  Proof. unfold M_Serialize.mk_trans. destruct m as [|b m]; [discriminate|]. destruct (check_bases _) as [|]; cbn [bind]; [|discriminate]. destruct (check_types _ _ _ _); [|discriminate]. intros [= <-]. split; [discriminate | reflexivity]. Qed.
  Lemma mk_group_eq p m g nm f : mk_group p m g nm = Ok f -> f = FGroup p m g nm.
  Proof. unfold M_Serialize.mk_group. destruct (negb _); [discriminate|]. destruct (check_bases _) as [|]; cbn [bind]; [|discriminate]. destruct (check_types _ _ _ _); [|discriminate]. intros [= <-]. reflexivity. Qed.
  Lemma mk_direct_eq r b nm f : mk_direct r b nm = Ok f -> f = FDirect r b nm.
  Proof. unfold mk_direct. destruct (String.eqb _ _); [|discriminate]. intros [= <-]. reflexivity. Qed.
  Lemma stored_agg p m path wh prev nm f : gen f -> mk_agg p m path wh prev nm = Ok f -> stored f.
  Proof. intros Hg H. apply mk_agg_eq in H as [_ [u ->]]. split; [exact Hg | intros (b & i & n & [=])]. Qed.
  Lemma within_lower md k f : within (lower_depth md) k f -> within md (1 + k) f.
  Proof. unfold within, lower_depth. destruct md as [m|]; cbn [option_map]; [|auto]. intros (n & E & Hn). exists n. split; [exact E | lia]. Qed.

  Definition entry (e : string) (kv : string * feat) : Prop := fst kv = funique (snd kv) /\ fentity (snd kv) = e /\ gen (snd kv).
  Lemma expand_inv e d d' : (forall kv, In kv d -> entry e kv) -> NoDup (map fst d) -> expand rels d = Ok d' -> (forall kv, In kv d' -> entry e kv) /\ NoDup (map fst d').
  Proof.
    intros Hd Hn. unfold expand. apply (foldM_inv (fun d' => (forall kv, In kv d' -> entry e kv) /\ NoDup (map fst d'))); [|auto].
    intros acc kv acc' Hkv [Ha Hna]. destruct (Nat.ltb_spec 1 (fnout (snd kv))) as [Ho|Ho]; [|intros [= <-]; auto].
    destruct (mapM _ _) as [sl|] eqn:Es; cbn [bind]; [|discriminate]. intros [= <-].
    assert (forall s, In s sl -> entry e (funique s, s)) as Hsl.
    { intros s Hs. destruct (mapM_In _ _ _ _ Es Hs) as (i & Hi & Ei). apply in_seq in Hi. unfold mk_slice in Ei. destruct (_ && _)%bool eqn:Eb; [|discriminate]. injection Ei as <-. apply andb_true_iff in Eb as [E1 E2]. apply Nat.ltb_lt in E1, E2.
      destruct (Hd kv Hkv) as (_ & He & Hg). split; [reflexivity|]. split; [exact He | constructor; assumption]. }
    assert ((forall x, In x (ddel (fst kv) acc) -> entry e x) /\ NoDup (map fst (ddel (fst kv) acc))) as Hdel.
    { split; [intros x Hx; apply filter_In in Hx as [Hx _]; apply Ha; exact Hx|]. clear - Hna. unfold ddel. induction acc as [|y acc IH]; cbn [filter map]; [constructor|]. inversion Hna as [|? ? H1 H2]; subst.
      destruct (negb _); cbn [map]; [constructor; [|apply IH; exact H2] | apply IH; exact H2]. intros H. apply H1. apply in_map_iff in H as (z & Ez & Hz). apply filter_In in Hz as [Hz _]. apply in_map_iff. exists z. auto. }
    revert Hdel. generalize (ddel (fst kv) acc). clear - Hsl. induction sl as [|s sl IH]; intros x [Hx Hnx]; cbn [fold_left]; [auto|].
    apply IH; [intros s' Hs'; apply Hsl; right; exact Hs'|]. split; [|apply (dset_NoDup _ String.eqb_spec); exact Hnx]. intros [n y] Hy. destruct (In_dset _ _ _ _ _ Hy) as [[-> ->]|Hy']; [apply Hsl; left; reflexivity | apply Hx; exact Hy'].
  Qed.
  Lemma filterM_In p l l' x : filterM p l = Ok l' -> In x l' -> In x l /\ p x = Ok true.
  Proof.
    revert l'. induction l as [|y l IH]; intros l'; cbn [filterM]; [intros [= <-] []|]. destruct (p y) as [b|] eqn:Ep; cbn [bind]; [|discriminate]. destruct (filterM p l) as [l1|] eqn:El; cbn [bind]; [|discriminate].
    intros [= <-] Hx. destruct b; [destruct Hx as [<-|Hx]; [split; [left; reflexivity | exact Ep]|]|]; (destruct (IH l1 eq_refl Hx); split; [right; assumption | assumption]).
  Qed.
  Lemma features_by_type_inv all e md ts fs : inv_all all -> features_by_type all e md ts = Ok fs -> forall f, In f fs -> gen f /\ fentity f = e /\ within md 0 f /\ open_entity e /\ forall l, ts = Some l -> existsb (issub (ftype f)) l = true.
  Proof.
    intros Hi. unfold M_DFS.features_by_type. destruct (match md with Some m => Z.ltb m 0 | None => false end) eqn:Em; [intros [= <-] f []|]. destruct (dget String.eqb e all) as [d|] eqn:Ed; [|intros [= <-] f []].
    destruct (Hi _ _ Ed) as (Ho & Hn & Hd). destruct (expand rels d) as [d'|] eqn:Ex; cbn [bind]; [|discriminate]. intros Ef f Hf.
    apply (filterM_In _ _ _ _ Ef) in Hf as [Hf Hdeep]. apply filter_In in Hf as [Hf Hty]. apply in_map_iff in Hf as ([n f'] & E & Hf). cbn [snd] in E. subst f'.
    apply (expand_inv e d d') in Ex as [Hd' _]; [|intros [n' f'] Hk; destruct (Hd _ _ Hk) as (K1 & K2 & K3 & _); split; [exact K1 | split; [exact K2 | exact K3]] | exact Hn]. destruct (Hd' _ Hf) as (_ & He & Hg). cbn [snd] in *. split; [exact Hg|]. split; [exact He|]. split; [|split; [exact Ho | intros l ->; exact Hty]].
    unfold deep_enough in Hdeep. unfold within. destruct md as [m|]; [|exact I]. destruct (pool_depth rels A f) as [k|] eqn:Ek; cbn [bind] in Hdeep; [|discriminate]. injection Hdeep as Hdeep. apply Z.leb_le in Hdeep. exists k. split; [reflexivity | lia].
  Qed.

  Lemma filter_matches_In ms os g c kept t : filter_matches_by_options rels p_ret vtypes ms os g c = Ok kept -> In t kept ->
    is_valid_match os g t = true /\ exists m, In m ms /\ Permutation t m.
  Proof.
    unfold filter_matches_by_options. intros H Ht. assert (kept = isort (match_leb rels) (dedup_by (tuple_eq rels) [] (flat_map (choose_match rels p_ret vtypes os g c) ms))) as -> by (destruct ms, os; try discriminate H; injection H as <-; reflexivity).
    apply (Permutation_in _ (isort_perm _ _)) in Ht. apply dedup_incl in Ht. apply in_flat_map in Ht as (m & Hm & Ht). unfold choose_match in Ht. destruct (is_valid_match os g m) eqn:Ev.
    - destruct Ht as [<-|[]]. split; [exact Ev | exists m; split; [exact Hm | reflexivity]].
    - destruct c; [|contradiction]. destruct (find _ _) as [o|] eqn:Ef; [|contradiction]. destruct Ht as [<-|[]]. apply find_some in Ef as [H1 H2]. split; [exact H2|]. exists m. split; [exact Hm|]. apply permutations_In in H1. exact H1.
  Qed.
  Lemma matching_inv all e md ts p direct flt ms m : inv_all all -> get_matching_inputs all e md ts p direct flt = Ok ms -> In m ms ->
    (is_valid_match (opts p) false m = true /\ exists t, Permutation t m /\ Forall2 (fun f ty => issub (ftype f) ty = true) t ts) /\ forall b, In b m -> gen b /\ fentity b = e /\ within md 0 b /\ flt b = true.
  Proof.
    intros Hi. unfold M_DFS.get_matching_inputs. destruct (features_by_type all e md (Some ts)) as [fs|] eqn:Ef; cbn [bind]; [|discriminate].
    destruct (match_inputs _ _ _ _ _ _ _ _ _) as [ms1|] eqn:Em; cbn [bind]; [|discriminate]. intros E Hin. destruct (filter_matches_In _ _ _ _ _ _ E Hin) as [Hv (m1 & Hm1 & Hinc)].
    assert (In m1 ms1) as Hm1' by (destruct direct; [apply filter_In in Hm1; tauto | exact Hm1]).
    split; [split; [exact Hv|]; destruct (inputs_takes _ _ _ _ _ ordF_perm e _ _ _ _ _ _ (fun f Hf => proj1 (proj2 (features_by_type_inv _ _ _ _ _ Hi Ef f (proj1 (proj1 (filter_In _ _ _) Hf))))) Em Hm1') as (t & Ht & H2); exists t; split; [etransitivity; [exact Ht | symmetry; exact Hinc] | exact H2]|].
    intros b Hb. assert (forall b, In b m -> In b m1) as Hinc' by (intros b' Hb'; eapply Permutation_in; [exact Hinc | exact Hb']). pose proof (inputs_incl _ _ _ _ _ ordF_perm _ _ _ _ _ _ Em Hm1' b (Hinc' b Hb)) as Hbf.
    apply filter_In in Hbf as [Hbf Hflt]. destruct (features_by_type_inv _ _ _ _ _ Hi Ef b Hbf) as (H1 & H2 & H3 & _). auto.
  Qed.

  Lemma first_types p ts m : dfs_types p_inputs p = Ok ts -> (exists t, Permutation t m /\ Forall2 (fun f ty => issub (ftype f) ty = true) t ts) -> takes vtypes p_ret p_inputs p m.
  Proof. intros H Ht ts' sigs E. unfold dfs_types in H. rewrite E in H. injection H as <-. exact Ht. Qed.
  Lemma transform_inv e md direct s s' : inv s -> mdle e md -> open_entity e -> build_transform_features e md direct s = Ok s' -> inv s'.
  Proof.
    intros [Hi Hw] Hmd Ho. unfold M_DFS.build_transform_features. destruct (mapM _ (g_trans A)) as [t|] eqn:Et; cbn [bind]; [|discriminate]. destruct (mapM _ (g_groups A)) as [g|] eqn:Eg; cbn [bind]; [|discriminate].
    destruct (add_all _ _) as [all|] eqn:Ea; cbn [bind]; [|discriminate]. intros [= <-]. split; [|exact Hw]. cbn [s_all]. apply (add_all_inv _ _ _ Hi) in Ea; [exact Ea|]. intros f Hf. apply in_app_or in Hf as [Hf|Hf].
    - cut (gen f /\ exists p m, mk_trans p m None = Ok f). { intros [H1 (p & m & H2)]. apply mk_trans_eq in H2 as [_ ->]. split; [exact H1 | intros (b & i & n & [=])]. }
      apply in_concat in Hf as (fs & Hfs & Hf). destruct (mapM_In _ _ _ _ Et Hfs) as (p & Hp & Ep). unfold trans_step in Ep. destruct (ignore_entity_for_primitive _ _ _) eqn:Eig; [injection Ep as <-; contradiction|].
      destruct (dfs_types _ _) as [ts|] eqn:Edt; cbn [bind] in Ep; [|discriminate]. destruct (get_matching_inputs _ _ _ _ _ _ _) as [ms|] eqn:Em; cbn [bind] in Ep; [|discriminate].
      destruct (mapM_In _ _ _ _ Ep Hf) as (m & Hm & Ef). apply filter_In in Hm as [Hm Hu]. destruct (matching_inv _ _ _ _ _ _ _ _ m Hi Em Hm) as [[Hv0 Ht0] Hb]. pose proof (conj Hv0 (first_types _ _ _ Edt Ht0)) as Hv.
      split; [|eauto]. eapply gen_trans; [exact Hp | exact Ho | exact Eig| | exact Hv | exact Hu | exact Ef]. intros b Hbm. destruct (Hb b Hbm) as (H1 & H2 & H3 & _). split; [exact H1|]. split; [exact H2|]. apply (within_mono e md); [exact Hmd | apply (within_lower md 0); exact H3].
    - cut (gen f /\ exists p m g, mk_group p m g None = Ok f). { intros [H1 (p & m & g' & H2)]. apply mk_group_eq in H2 as ->. split; [exact H1 | intros (b & i & n & [=])]. }
      apply in_concat in Hf as (fs & Hfs & Hf). destruct (mapM_In _ _ _ _ Eg Hfs) as (p & Hp & Ep). unfold group_step in Ep. destruct (ignore_entity_for_primitive _ _ _) eqn:Eig; [injection Ep as <-; contradiction|].
      destruct (dfs_types _ _) as [ts|] eqn:Edt; cbn [bind] in Ep; [|discriminate]. destruct (get_matching_inputs _ _ _ _ _ _ _) as [ms|] eqn:Em; cbn [bind] in Ep; [|discriminate].
      destruct (features_by_type _ _ _ _) as [gs|] eqn:Egs; cbn [bind] in Ep; [|discriminate]. destruct (filter_matches_by_options _ _ _ _ _ _ _) as [gs'|] eqn:Egf; cbn [bind] in Ep; [|discriminate].
      destruct (mapM _ (filter (usable attr) ms)) as [fss|] eqn:Efs; cbn [bind] in Ep; [|discriminate]. injection Ep as <-. apply in_concat in Hf as (fs' & Hfs' & Hf). destruct (mapM_In _ _ _ _ Efs Hfs') as (m & Hm & Em'). apply filter_In in Hm as [Hm Hu].
      destruct (mapM_In _ _ _ _ Em' Hf) as (gt & Hgt & Eg'). apply filter_In in Hgt as [Hgt _]. destruct (filter_matches_In _ _ _ _ _ _ Egf Hgt) as [Hgv (gm & Hgm & Hgi)]. apply in_map_iff in Hgm as (g0 & <- & Hg0). destruct gt as [|g1 gt]; [discriminate|].
      assert (g1 = g0) as -> by (destruct (Permutation_in _ Hgi (or_introl eq_refl)) as [<-|[]]; reflexivity). destruct (features_by_type_inv _ _ _ _ _ Hi Egs g0 Hg0) as (G1 & G2 & G3 & _ & G5).
      destruct (matching_inv _ _ _ _ _ _ _ _ m Hi Em Hm) as [[Hv0 Ht0] Hb]. pose proof (conj Hv0 (first_types _ _ _ Edt Ht0)) as Hv.
      assert (is_valid_match (opts p) true [g0] = true) as Hgv'.
      { clear - Hgv. unfold M_Match.is_valid_match in *. destruct (opts p) as [|o [|o' os]]; [discriminate| |]; cbn [forallb zip_ok] in *; [apply andb_true_iff in Hgv as [-> _]; reflexivity | apply andb_true_iff in Hgv as [-> _]; reflexivity]. }
      split; [|eauto]. eapply gen_group; [exact Hp | exact Ho | exact Eig| | exact Hv | exact Hu | exact G1 | exact G2 | | exact Hgv' | exact Eg'].
      + intros b Hbm. destruct (Hb b Hbm) as (H1 & H2 & H3 & _). split; [exact H1|]. split; [exact H2|]. apply (within_mono e md); [exact Hmd | apply (within_lower md 0); exact H3].
      + split; [apply (within_mono e md); [exact Hmd | apply (within_lower md 0); exact G3]|]. intros Hng. rewrite Hng in G5. specialize (G5 _ eq_refl). cbn [existsb] in G5. rewrite orb_false_r in G5. exact G5.
  Qed.

  Lemma forward_inv r md s s' : inv s -> mdle (r_ce r) md -> In r rels -> open_entity (r_ce r) -> ~ In (r_pe r) (g_ign_e G) -> build_forward_features [(true, r)] md s = Ok s' -> inv s'.
  Proof.
    intros [Hi Hw] Hmd Hr Ho Hp. unfold M_DFS.build_forward_features. destruct (features_by_type _ _ _ _) as [fs|] eqn:Ef; cbn [bind]; [|discriminate]. destruct (mapM _ _) as [ds|] eqn:Ed; cbn [bind]; [|discriminate].
    destruct (add_all _ _) as [all|] eqn:Ea; cbn [bind]; [|discriminate]. intros [= <-]. split; [|exact Hw]. cbn [s_all]. apply (add_all_inv _ _ _ Hi) in Ea; [exact Ea|]. intros f Hf. destruct (mapM_In _ _ _ _ Ed Hf) as (b & Hb & E). apply filter_In in Hb as [Hb Hlk]. apply negb_true_iff in Hlk.
    destruct (features_by_type_inv _ _ _ _ _ Hi Ef b Hb) as (H1 & H2 & H3 & _). split; [|apply mk_direct_eq in E as ->; intros (b0 & i & n & [=])]. eapply gen_direct; try eassumption. split; [apply (within_mono (r_ce r) md); assumption | exact Hlk].
  Qed.

  (** one primitive of [build_agg_features] *)
  Definition agg_step (e ce : string) (path : list edge) (md : option Z) (s : state) (p : prim) : res state :=
    if ignore_entity_for_primitive (opts p) ce false then Ok s
    else do ts <- dfs_types p_inputs p;
         do ms <- get_matching_inputs (s_all s) ce (lower_depth md) ts p false (fun f => negb (direct_of_entity f e) && negb (feature_in_relationship_path path f));
         do ms <- filter_matches_by_options rels p_ret vtypes ms (opts p) false false;
         foldM (agg_one p (map snd path) ce) ms s.
  Lemma agg_step_inv e ce path md s p s' : In p (g_aggs A) -> inv s -> mdle e md -> open_entity e -> backward_chain rels e path ce -> path <> [] -> ~ In ce (g_ign_e G) ->
    agg_step e ce (map (fun r => (false, r)) path) md s p = Ok s' -> inv s'.
  Proof.
    intros Hp Hs Hmd Ho Hc Hne Hce E. unfold agg_step in E. destruct (ignore_entity_for_primitive _ _ _) eqn:Eig; [injection E as <-; exact Hs|].
    destruct (dfs_types _ _) as [ts|] eqn:Edt; cbn [bind] in E; [|discriminate]. destruct (get_matching_inputs _ _ _ _ _ _ _) as [ms|] eqn:Em; cbn [bind] in E; [|discriminate]. destruct (filter_matches_by_options _ _ _ _ _ _ _) as [ms'|] eqn:Ef; cbn [bind] in E; [|discriminate].
    assert (map snd (map (fun r : relationship => (false, r)) path) = path) as Epath by (rewrite map_map; apply map_id). rewrite Epath in E.
    assert (forall m, In m ms' -> (is_valid_match (opts p) false m = true /\ takes vtypes p_ret p_inputs p m) /\ forall b, In b m -> gen b /\ fentity b = ce /\ within (lim e) 1 b /\ direct_of_entity b e = false /\ feature_in_relationship_path (map (fun r => (false, r)) path) b = false) as Hms.
    { intros m Hm. destruct (filter_matches_In _ _ _ _ _ _ Ef Hm) as [Hv (m1 & Hm1 & Hi1)]. destruct (matching_inv _ _ _ _ _ _ _ _ m1 (proj1 Hs) Em Hm1) as [[_ (t0 & Ht0 & Ht1)] Hb1].
      split; [split; [exact Hv | apply (first_types _ _ _ Edt); exists t0; split; [etransitivity; [exact Ht0 | symmetry; exact Hi1] | exact Ht1]]|]. intros b Hb. destruct (Hb1 b (Permutation_in _ Hi1 Hb)) as (H1 & H2 & H3 & H4).
      split; [exact H1|]. split; [exact H2|]. split; [apply (within_mono e md); [exact Hmd | apply (within_lower md 0); exact H3]|]. apply andb_true_iff in H4 as [H4 H5]. apply negb_true_iff in H4, H5. split; assumption. }
    clear Em Ef. revert E. apply foldM_inv; [|exact Hs]. clear s s' Hs. intros s m s' Hm [Hi Hw] E. destruct (Hms m Hm) as [Hv Hb]. unfold M_DFS.agg_one in E.
    destruct (check_stacking _ _ _ _) as [ok|] eqn:Ek; cbn [bind] in E; [|discriminate]. destruct ok; cbn [negb] in E; [|injection E as <-; split; assumption].
    destruct (mk_agg p m path None None None) as [f|] eqn:Ef; cbn [bind] in E; [|discriminate]. destruct (handle_new_feature f (s_all s)) as [all|] eqn:Ea; cbn [bind] in E; [|discriminate].
    assert (inv_all all) as Hall by (eapply handle_inv; [exact Hi | | exact Ea]; eapply stored_agg; [|exact Ef]; eapply gen_agg; eassumption).
    destruct (Nat.leb_spec (g_limit A) (count_wheres rels m)) as [Hl|Hl]; [injection E as <-; split; assumption|]. destruct (existsb _ (g_wheres A)) eqn:Eq; cbn [negb] in E; [|injection E as <-; split; assumption].
    destruct (mapM _ _) as [fs|] eqn:Efs; cbn [bind] in E; [|discriminate]. destruct (add_all fs all) as [all'|] eqn:Ea'; cbn [bind] in E; [|discriminate]. injection E as <-. split; [|exact Hw]. cbn [s_all].
    apply (add_all_inv _ _ _ Hall) in Ea'; [exact Ea'|]. intros x Hx. destruct (mapM_In _ _ _ _ Efs Hx) as (w & Hwf & Ex). apply filter_In in Hwf as [Hwf _]. apply (Permutation_in _ (ordF_perm _)) in Hwf.
    destruct (dget String.eqb ce (s_wheres s)) as [l|] eqn:El; [|contradiction]. destruct (Hw _ _ _ El Hwf) as (src & Hsrc & Hg).
    eapply stored_agg; [|exact Ex]. eapply gen_agg_where; try eassumption. apply existsb_exists in Eq as (q & Hq & Eq). exists q. auto.
  Qed.
  Lemma agg_inv e ce path md s s' : inv s -> mdle e md -> open_entity e -> backward_chain rels e path ce -> path <> [] -> ~ In ce (g_ign_e G) ->
    build_agg_features e ce (map (fun r => (false, r)) path) md s = Ok s' -> inv s'.
  Proof. intros Hs Hmd Ho Hc Hne Hce. apply foldM_inv; [|exact Hs]. intros s1 p s2 Hp H1 E. eapply (agg_step_inv e ce path md s1 p); eassumption. Qed.

  Lemma identity_inv e all all' : inv_all all -> open_entity e -> (forall l, lim e = Some l -> (0 <= l)%Z) -> add_identity_features variables vtypes rels A G e all = Ok all' -> inv_all all'.
  Proof.
    intros Hi Ho Hl. unfold add_identity_features. destruct (mapM _ _) as [ids|] eqn:Ei; cbn [bind]; [|discriminate]. destruct (add_all ids all) as [all1|] eqn:Ea; cbn [bind]; [|discriminate]. intros E.
    assert (inv_all all1) as H1.
    { eapply add_all_inv; [exact Hi| | exact Ea]. intros f Hf. destruct (mapM_In _ _ _ _ Ei Hf) as (v & Hv & Ev). apply filter_In in Hv as [Hv Hg]. unfold M_Serialize.mk_ident, is_var in Ev. destruct (vtypes e v) eqn:Et; [|discriminate]. injection Ev as <-.
      split; [|intros (b & i & n & [=])]. constructor; [exact Ho | exact Hl | exact Hv | apply negb_true_iff, mem_str_nIn in Hg; exact Hg | congruence]. }
    eapply add_all_inv; [exact H1| | exact E]. intros f Hf. apply filter_In in Hf as [Hf Hfe]. apply String.eqb_eq in Hfe. split; [apply gen_seed; [exact Hf | rewrite Hfe; exact Ho] | auto].
  Qed.
  Lemma where_inv e s s' : inv s -> build_where_clauses e s = Ok s' -> inv s'.
  Proof.
    intros [Hi Hw]. unfold M_DFS.build_where_clauses. destruct (mapM _ _) as [ws|] eqn:Ew; cbn [bind]; [|discriminate]. intros [= <-]. split; [exact Hi|]. cbn [s_wheres]. intros e' l w Hl Hin.
    destruct (dget_dset_cases _ _ _ _ _ Hl) as [[-> ->]|H]; [|eapply Hw; eauto].
    assert (forall w, In w (List.concat ws) -> exists src, is_where e w src /\ gen src) as Hc.
    { intros x Hx. apply in_concat in Hx as (y & Hy & Hx). destruct (mapM_In _ _ _ _ Ew Hy) as (f & Hf & Ef). apply filter_In in Hf as [Hf _]. destruct f as [e1 v nm|? ? ?|? ? ? ? ? ? ?|? ? ?|? ? ? ?|? ? ?]; try (injection Ef as <-; contradiction).
      destruct (mapM_In _ _ _ _ Ef Hx) as (z & Hz & Ez). apply in_map_iff in Hf as ([n f'] & E & Hf). cbn [snd] in E. subst f'. destruct (dget String.eqb e (s_all s)) as [d|] eqn:Ed; [|contradiction]. destruct (Hi _ _ Ed) as (_ & _ & Hd). destruct (Hd _ _ Hf) as (_ & He & Hg). cbn [fentity] in He. subst e1.
      exists (FIdent e v nm). split; [exists v, nm, z; auto | apply Hg]. }
    assert (forall ws' l0, (forall w, In w ws' -> exists src, is_where e w src /\ gen src) -> (forall w, In w l0 -> exists src, is_where e w src /\ gen src) -> forall w, In w (fold_left (fun l w => add_where rels w l) ws' l0) -> exists src, is_where e w src /\ gen src) as Hfold.
    { clear. induction ws' as [|x ws' IH]; intros l0 H1 H2 w; cbn [fold_left]; [apply H2|]. apply IH; [intros y Hy; apply H1; right; exact Hy|]. intros y Hy. unfold add_where in Hy. destruct (existsb _ _); [apply H2; exact Hy|]. apply in_app_or in Hy as [Hy|[<-|[]]]; [apply H2; exact Hy | apply H1; left; reflexivity]. }
    eapply Hfold; [exact Hc | | exact Hin]. intros x Hx. destruct (dget String.eqb e (s_wheres s)) as [l0|] eqn:E0; [eapply Hw; eauto | contradiction].
  Qed.

  Lemma forward_one e ep l : get_forward_entities 1 rels e false = Ok l -> In ep l -> exists r, In r rels /\ r_ce r = e /\ ep = (r_pe r, [(true, r)]).
  Proof.
    unfold get_forward_entities. cbn [related_entities]. intros H Hin. destruct (mapM _ _) as [subs|] eqn:Es; cbn [bind] in H; [|discriminate]. injection H as <-. apply in_concat in Hin as (x & Hx & Hin). destruct (mapM_In _ _ _ _ Es Hx) as (r & Hr & E). cbn [bind] in E. injection E as <-.
    apply filter_In in Hr as [Hr Er]. apply String.eqb_eq in Er. destruct Hin as [<-|[]]. exists r. auto.
  Qed.
  Lemma skip_false path ep : skip_entity A G path ep = false -> ~ In (fst ep) (g_ign_e G).
  Proof. unfold skip_entity. intros H. apply orb_false_iff in H as [H _]. apply mem_str_nIn. exact H. Qed.

  Lemma run_inv tf fuel : forall e path md s s', inv s -> mdle e md -> open_entity e -> run_dfs tf fuel e path md s = Ok s' -> inv s'.
  Proof.
    induction fuel as [|fuel IH]; intros e path md s s' Hs Hmd Ho; cbn [M_DFS.run_dfs]; destruct (match md with Some m => Z.ltb m 0 | None => false end) eqn:Emd; try (intros [= <-]; exact Hs); try discriminate.
    destruct (add_identity_features _ _ _ _ _ _ _) as [all|] eqn:Ea; cbn [bind]; [|discriminate].
    assert (inv (mkSt all (s_wheres s))) as H0.
    { split; [|apply Hs]. cbn [s_all]. eapply identity_inv; [|exact Ho | | exact Ea]; [|intros l Hl; unfold mdle in Hmd; rewrite Hl in Hmd; destruct Hmd as (m & -> & Hm); apply Z.ltb_ge in Emd; lia]. intros e' d Hd. destruct (dget_dset_cases _ _ _ _ _ Hd) as [[-> ->]|H]; [split; [exact Ho|]; split; [constructor | intros n f []] | apply Hs; exact H]. }
    assert (forall l s1 s2, inv s1 -> foldM (fun s (ep : string * list edge) => if M_DFS.visited s (fst ep) || skip_entity A G path ep then Ok s else run_dfs tf fuel (fst ep) (path ++ snd ep) (lower_depth md) s) l s1 = Ok s2 -> inv s2) as Hvisit.
    { intros l s1 s2 H1. apply foldM_inv; [|exact H1]. intros s3 ep s4 _ H3 E. destruct (M_DFS.visited _ _ || skip_entity A G path ep)%bool eqn:Ev; [injection E as <-; exact H3|]. apply orb_false_iff in Ev as [_ Ev].
      eapply IH; [exact H3 | apply (mdle_lower e); exact Hmd | right; apply (skip_false path ep); exact Ev | exact E]. }
    destruct (get_backward_entities 1 rels e false) as [back|]; cbn [bind]; [|discriminate].
    match goal with |- bind ?m _ = _ -> _ => destruct m as [s1|] eqn:E1 end; cbn [bind]; [|discriminate]. apply (Hvisit _ _ _ H0) in E1.
    destruct (get_backward_entities tf rels e true) as [deep|] eqn:Edeep; cbn [bind]; [|discriminate].
    match goal with |- bind ?m _ = _ -> _ => destruct m as [s2|] eqn:E2 end; cbn [bind]; [|discriminate].
    assert (inv s2) as H2.
    { revert E2. apply foldM_inv; [|exact E1]. intros s3 [ce pth] s4 Hin H3 E. destruct (skip_entity A G path (ce, pth)) eqn:Esk; [injection E as <-; exact H3|]. apply skip_false in Esk. cbn [fst snd] in *.
      apply (related_In r_pe r_ce false rels _ e deep Edeep) in Hin as (q & -> & Hq & Hch). eapply agg_inv; eassumption. }
    clear E1 E2. match goal with |- bind ?m _ = _ -> _ => destruct m as [s3|] eqn:E3 end; cbn [bind]; [|discriminate]. apply (transform_inv _ _ _ _ _ H2 Hmd Ho) in E3.
    destruct (get_forward_entities 1 rels e false) as [fwd|] eqn:Efwd; cbn [bind]; [|discriminate].
    match goal with |- bind ?m _ = _ -> _ => destruct m as [s4|] eqn:E4 end; cbn [bind]; [|discriminate]. apply (Hvisit _ _ _ E3) in E4.
    match goal with |- bind ?m _ = _ -> _ => destruct m as [s5|] eqn:E5 end; cbn [bind]; [|discriminate].
    assert (inv s5) as H5.
    { revert E5. apply foldM_inv; [|exact E4]. intros s6 ep s7 Hin H6 E. destruct (skip_entity A G path ep) eqn:Esk; [injection E as <-; exact H6|]. apply skip_false in Esk. destruct (forward_one _ _ _ Efwd Hin) as (r & Hr & He & ->). cbn [fst snd] in *.
      eapply forward_inv; [exact H6 | rewrite He; exact Hmd | exact Hr | rewrite He; exact Ho | exact Esk | exact E]. }
    clear E5. match goal with |- bind ?m _ = _ -> _ => destruct m as [s6|] eqn:E6 end; cbn [bind]; [|discriminate]. apply (transform_inv _ _ _ _ _ H5 Hmd Ho) in E6. apply where_inv. exact E6.
  Qed.
End DFS.
