(** C40: concat is the union of two entity sets. *)
From Coq Require Import Sorting.Permutation Sorting.Sorted.
From Verif Require Import Base BaseFacts M_Schema M_Table M_LastTime L_LastTime M_Entities S_Entities S_Calls.
From Verif Require Import P_Equality L_Entities L_Tables P_Relate P_Meta P_Tables L_Normalize P_Normalize.
Local Open Scope string_scope.
Local Open Scope list_scope.

Lemma first_rows_cover cs rs : (forall q, In q (first_rows cs rs) -> In q rs) /\ (forall r, In r rs -> exists q, In q (first_rows cs rs) /\ same_on cs q r).
Proof.
  unfold first_rows. destruct (first_by_spec (fun r => map (fun c => cell c r) cs) rs []) as (A & B & C). split.
  - intros q Hq. destruct (A q Hq) as [_ Hf]. apply find_some in Hf as [Hf _]. exact Hf.
  - intros r Hr. specialize (C r Hr (fun f => f)). apply in_map_iff in C as (q & Hk & Hq). exists q. split; [exact Hq|]. clear - Hk. intros c Hc. induction cs as [|a cs IH]; [destruct Hc|]. cbn in Hk. injection Hk as H1 H2. destruct Hc as [->|Hc]; auto.
Qed.
Lemma find_app {A} (f : A -> bool) l l' : find f (l ++ l') = match find f l with Some x => Some x | None => find f l' end.
Proof. induction l as [|a l IH]; cbn; [reflexivity|]. destruct (f a); [reflexivity | exact IH]. Qed.
Lemma find_map {A B} (f : B -> bool) (g : A -> B) l : find f (map g l) = option_map g (find (fun x => f (g x)) l).
Proof. induction l as [|a l IH]; cbn; [reflexivity|]. destruct (f (g a)); [reflexivity | exact IH]. Qed.

Section C40.
  Variables to_numeric to_datetime : list val -> res (dtype * list val).
  Variable obj_kind : val -> res (option tkind).
  Variable infer : table -> string -> vtype.
  Variable touched : list relationship -> list string -> list string.
  Variable last_times : eset -> string -> list (val * val).
  Notation update_data := (update_data to_numeric to_datetime obj_kind touched last_times).
  Notation concat := (concat to_numeric to_datetime obj_kind touched last_times).
  Notation init := (init to_numeric to_datetime obj_kind).

  Lemma update_Ok id t srt s s' u : update_data id t srt false s = (s', Ok u) ->
    exists e e' t', dget String.eqb id (s_ents s) = Some e /\ s_ents s' = dset String.eqb id e' (s_ents s) /\
      t_select t (map v_id (n_vars e)) = Ok t' /\ n_index e' = n_index e /\ n_time e' = n_time e /\
      In (n_index e) (t_names t') /\ NoDup (t_column (n_tab e') (n_index e)) /\
      n_tab e' = match n_time e with Some ti => sorted_table srt ti (n_index e) t' | None => t' end.
  Proof.
    unfold M_Entities.update_data. intros H. apply sbind_Ok in H as (u1 & s1 & E & H).
    assert (s_ents s' = s_ents s1) as Hs.
    { unfold sbind at 1 in H. unfold sget in H. apply sbind_Ok in H as (e & s2 & E2 & H). apply slift_Ok in E2 as [_ ->]. unfold sbind, sret, reset_meta, smod in H. injection H as <- _. reflexivity. }
    rewrite Hs. clear H Hs. unfold on_entity in E. destruct (sent id s) as [e|] eqn:Ee; [|discriminate]. apply sent_In in Ee.
    match type of E with context [match ?m with (p, r) => _ end] => destruct m as [[k e'] r] eqn:Em end. injection E as <- ->. cbn [s_ents with_kind with_ents].
    unfold sbind at 1 in Em. unfold eget at 1 in Em. cbn [snd] in Em. apply sbind_Ok in Em as (u2 & p & E & Em). apply sguard_Ok in E as [_ ->]. apply sbind_Ok in Em as (u3 & p & E & Em). apply sguard_Ok in E as [_ ->].
    apply sbind_Ok in Em as (t' & p & E & Em). apply slift_Ok in E as [E ->]. unfold sbind at 1 in Em. unfold emod at 1 in Em. cbn [fst snd] in Em.
    change (init (n_index e) (n_time e) (n_sec e) srt (s_kind s, with_tab t' e) = (k, e', Ok u1)) in Em.
    apply init_Ok in Em as ([A1 A2] & Hi & _ & _ & _ & Ht & Htab & _). cbn [n_tab with_tab n_time] in Htab, Ht.
    exists e, e', t'. split; [exact Ee|]. split; [reflexivity|]. split; [exact E|]. split; [exact Hi|]. split; [rewrite Ht; destruct (n_time e); reflexivity|]. split; [|split; [rewrite <- Hi; exact A2 | exact Htab]].
    rewrite Hi, Htab in A1. destruct (n_time e); [|exact A1]. unfold t_names in *. rewrite sorted_table_cols in A1. exact A1.
  Qed.

  (** one entity after the call *)
  Definition joined (e o e' : ent) : Prop :=
    exists t', t_select (concat_table e o) (map v_id (n_vars e)) = Ok t' /\ n_index e' = n_index e /\ n_time e' = n_time e /\
      In (n_index e) (t_names t') /\ NoDup (t_column (n_tab e') (n_index e)) /\
      n_tab e' = match n_time e with Some ti => sorted_table false ti (n_index e) t' | None => t' end.

  Lemma updates_Ok b l : forall s s' u, NoDup (map fst l) ->
    siter (fun ie => o <~ slift (sent (fst ie) b) ;; update_data (fst ie) (concat_table (snd ie) o) false false) l s = (s', Ok u) ->
    (forall id e, In (id, e) l -> dget String.eqb id (s_ents s) = Some e) ->
    forall id, match dget String.eqb id l with
               | Some e => exists o e', dget String.eqb id (s_ents b) = Some o /\ dget String.eqb id (s_ents s') = Some e' /\ joined e o e'
               | None => dget String.eqb id (s_ents s') = dget String.eqb id (s_ents s)
               end.
  Proof.
    induction l as [|[i e] l IH]; intros s s' u Hn H Hin id; cbn [siter] in H; [unfold sret in H; injection H as <- _; reflexivity|].
    cbn [map fst] in Hn. inversion Hn as [|? ? Hni Hn']; subst. apply sbind_Ok in H as (u1 & s1 & E & H). cbn [fst snd] in E. apply sbind_Ok in E as (o & s2 & E1 & E). apply slift_Ok in E1 as [E1 ->]. apply sent_In in E1.
    apply update_Ok in E as (e0 & e' & t' & G & Hs & A). rewrite (Hin i e (or_introl eq_refl)) in G. injection G as <-.
    assert (forall id0 e0, In (id0, e0) l -> dget String.eqb id0 (s_ents s1) = Some e0) as Hin1.
    { intros id0 e0 H0. rewrite Hs. rewrite (dget_dset_other _ String.eqb_spec); [apply Hin; right; exact H0|]. intros ->. apply Hni. apply (in_map fst) in H0. exact H0. }
    specialize (IH s1 s' u Hn' H Hin1 id). cbn [dget]. destruct (String.eqb_spec id i) as [->|Hd].
    - assert (dget String.eqb i l = None) as Hnone by (apply (dget_None _ String.eqb_spec i l); exact Hni). rewrite Hnone in IH. exists o, e'. split; [exact E1|]. split; [rewrite IH, Hs; apply (dget_dset_same _ String.eqb_spec)|]. exists t'. exact A.
    - destruct (dget String.eqb id l) as [x|]; [exact IH|]. rewrite IH, Hs. apply (dget_dset_other _ String.eqb_spec). congruence.
  Qed.

  Lemma last_times_tab upd s s' u id e : add_last_time_indexes touched last_times upd s = (s', u) -> dget String.eqb id (s_ents s) = Some e ->
    exists l, dget String.eqb id (s_ents s') = Some (with_lti l e).
  Proof.
    unfold add_last_time_indexes, sbind, sget, smod, reset_meta. intros H. injection H as <- _. cbn [s_ents with_meta with_ents]. intros He.
    set (ids := match upd with [] => _ | _ => _ end). clearbody ids. generalize dependent (s_ents s). intros l He. generalize (last_times s). intros lt.
    induction l as [|[i x] l IH]; [discriminate|]. cbn [dget fst snd map] in *. destruct (mem_str i ids); cbn [dget]; destruct (String.eqb id i) eqn:Ei; auto; injection He as ->; [eauto|]. exists (n_lti e). destruct e; reflexivity.
  Qed.

  (** *** The union.  Every entity of the result has each index once, in the order of time and index, and its rows are the
      rows of [a] and those rows of [b] whose index is not in [a]. *)
  Theorem C40_union_partial a b s' id e : NoDup (map fst (s_ents a)) -> concat a b a = (s', Ok tt) -> dget String.eqb id (s_ents a) = Some e -> indexed e ->
    exists o e', dget String.eqb id (s_ents b) = Some o /\ dget String.eqb id (s_ents s') = Some e' /\
      n_index e' = n_index e /\ n_time e' = n_time e /\ t_names (n_tab e') = map v_id (n_vars e) /\
      NoDup (t_column (n_tab e') (n_index e)) /\
      (forall ti, n_time e = Some ti -> in_order ti (n_index e) (t_rows (n_tab e'))) /\
      (forall q, In q (t_rows (n_tab e')) -> exists r, same_on (map v_id (n_vars e)) q r /\
         (In r (t_rows (n_tab e)) \/ In r (t_rows (n_tab o)) /\ ~ In (cell (n_index e) r) (t_column (n_tab e) (n_index e)))) /\
      (forall r, In r (t_rows (n_tab e)) -> exists q, In q (t_rows (n_tab e')) /\ same_on (map v_id (n_vars e)) q r) /\
      (NoDup (t_column (n_tab o) (n_index e)) -> forall r, In r (t_rows (n_tab o)) -> ~ In (cell (n_index e) r) (t_column (n_tab e) (n_index e)) ->
         exists q, In q (t_rows (n_tab e')) /\ same_on (map v_id (n_vars e)) q r).
  Proof.
    intros Hn H He Hidx. unfold M_Entities.concat in H. apply sbind_Ok in H as (u1 & s1 & E & H). apply sguard_Ok in E as [_ ->].
    apply sbind_Ok in H as (u2 & s1 & E & H).
    pose proof (updates_Ok b (s_ents a) a s1 u2 Hn E (fun i x Hx => dget_NoDup_In _ String.eqb_spec i x (s_ents a) Hn Hx) id) as Hj. rewrite He in Hj. destruct Hj as (o & e' & Eo & Ee' & t' & Hsel & Hi & Ht & Hin & Hnd & Htab).
    destruct (last_times_tab _ _ _ _ id e' H Ee') as (lt & Elt).
    exists o, (with_lti lt e'). cbn [n_index n_time n_tab with_lti]. split; [exact Eo|]. split; [exact Elt|]. split; [exact Hi|]. split; [exact Ht|].
    apply t_select_Ok in Hsel as (S1 & S2 & S3 & _). set (ids := map v_id (n_vars e)) in *.
    assert (t_names (n_tab e') = ids) as Hnames by (rewrite Htab, <- S1; destruct (n_time e); [unfold t_names; rewrite sorted_table_cols|]; reflexivity). split; [exact Hnames|]. split; [exact Hnd|].
    split. { intros ti Hti. rewrite Htab, Hti. cbn [sorted_table t_rows]. apply isort_rows_sorted. }
    assert (Permutation (t_rows t') (t_rows (n_tab e'))) as Hp by (rewrite Htab; destruct (n_time e); [apply sorted_table_perm | reflexivity]).
    set (names := t_names (n_tab e)) in *. set (proj := fun r : row => map (fun c => (c, cell c r)) names) in *.
    set (both := t_rows (n_tab e) ++ map proj (t_rows (n_tab o))).
    set (cols := match n_created e with Some c => if String.eqb c (n_index e) then names else [n_index e] | None => [n_index e] end).
    assert (Permutation (t_rows t') (map (fun r => map (fun c => (c, cell c r)) ids) (first_rows cols both))) as Hp'.
    { rewrite S2. apply Permutation_map. unfold concat_table. cbn [t_rows]. fold names proj both cols. destruct (n_time e); apply isort_perm. }
    assert (forall c, In c ids -> In c names) as Hids by (intros c Hc; apply S3 in Hc; exact Hc).
    assert (In (n_index e) ids) as Hii by (rewrite <- S1; exact Hin).
    assert (In (n_index e) names) as Hiin by (apply Hids; exact Hii).
    assert (forall r c, In c names -> cell c (proj r) = cell c r) as Hproj by (intros r c Hc; apply cell_select; exact Hc).
    assert (forall q, In q (t_rows (n_tab e')) <-> exists p, In p (first_rows cols both) /\ q = map (fun c => (c, cell c p)) ids) as Hq.
    { intros q. split.
      - intros Hq. apply (Permutation_in _ (Permutation_sym Hp)) in Hq. apply (Permutation_in _ Hp') in Hq. apply in_map_iff in Hq as (p & <- & Hp0). eauto.
      - intros (p & Hp0 & ->). apply (Permutation_in _ Hp). apply (Permutation_in _ (Permutation_sym Hp')). apply in_map_iff. eauto. }
    assert (forall p, same_on ids (map (fun c => (c, cell c p)) ids) p) as Hsel by (intros p c Hc; apply cell_select; exact Hc).
    destruct (first_rows_cover cols both) as [Fin Fcov].
    assert (forall r, In r (t_rows (n_tab e)) -> exists q, In q (t_rows (n_tab e')) /\ same_on ids q r) as Hself.
    { intros r Hr. unfold cols in *. destruct (match n_created e with Some c => String.eqb c (n_index e) | None => false end) eqn:Ec.
      - assert (cols = names) as Hcols by (unfold cols; destruct (n_created e); [rewrite Ec; reflexivity | discriminate]). fold cols in Fin, Fcov, Hq. rewrite Hcols in *.
        destruct (Fcov r) as (p & Hp1 & Hp2); [apply in_or_app; left; exact Hr|]. exists (map (fun c => (c, cell c p)) ids). split; [apply Hq; eauto|]. intros c Hc. rewrite (Hsel p c Hc). apply Hp2. apply Hids. exact Hc.
      - assert (cols = [n_index e]) as Hcols by (unfold cols; destruct (n_created e); [rewrite Ec; reflexivity | reflexivity]). fold cols in Fin, Fcov, Hq. rewrite Hcols in *.
        destruct (first_rows_spec (n_index e) both) as (G1 & _ & _). destruct (Fcov r) as (p & Hp1 & Hp2); [apply in_or_app; left; exact Hr|]. specialize (Hp2 _ (or_introl eq_refl)).
        assert (p = r) as ->.
        { pose proof (G1 p Hp1) as Hf. unfold first_with, both in Hf. rewrite find_app in Hf. destruct (find _ (t_rows (n_tab e))) as [x|] eqn:Ex.
          - injection Hf as ->. apply find_some in Ex as [Ex _]. eapply NoDup_map_eq; [apply Hidx | exact Ex | exact Hr | exact Hp2].
          - exfalso. apply (find_none _ _ Ex) in Hr. destruct (val_eqb_spec (cell (n_index e) r) (cell (n_index e) p)); [discriminate | congruence]. }
        exists (map (fun c => (c, cell c r)) ids). split; [apply Hq; eauto | apply Hsel]. }
    split; [|split; [exact Hself|]].
    - intros q Hq0. pose proof (proj1 (Hq q) Hq0) as (p & Hp1 & ->). pose proof (Fin p Hp1) as Hb. unfold both in Hb. apply in_app_or in Hb as [Hb|Hb]; [exists p; split; [apply Hsel | left; exact Hb]|].
      apply in_map_iff in Hb as (r & <- & Hr). assert (same_on ids (map (fun c => (c, cell c (proj r))) ids) r) as Hs by (intros c Hc; rewrite (Hsel _ c Hc); apply Hproj; apply Hids; exact Hc).
      destruct (in_dec val_eq_dec (cell (n_index e) r) (t_column (n_tab e) (n_index e))) as [Hi2|Hi2]; [|exists r; split; [exact Hs | right; auto]].
      apply in_map_iff in Hi2 as (r1 & Hc1 & Hr1). destruct (Hself r1 Hr1) as (q1 & Hq1 & Hs1). exists r1. split; [|left; exact Hr1].
      assert (map (fun c => (c, cell c (proj r))) ids = q1) as -> by (eapply NoDup_map_eq; [exact Hnd | exact Hq0 | exact Hq1 | rewrite (Hs1 _ Hii), (Hs _ Hii); symmetry; exact Hc1]). exact Hs1.
    - intros Hob r Hr Hni. assert (In (proj r) both) as Hb by (apply in_or_app; right; apply in_map; exact Hr).
      unfold cols in *. destruct (match n_created e with Some c => String.eqb c (n_index e) | None => false end) eqn:Ec.
      + assert (cols = names) as Hcols by (unfold cols; destruct (n_created e); [rewrite Ec; reflexivity | discriminate]). fold cols in Fin, Fcov, Hq. rewrite Hcols in *.
        destruct (Fcov _ Hb) as (p & Hp1 & Hp2). exists (map (fun c => (c, cell c p)) ids). split; [apply Hq; eauto|]. intros c Hc. rewrite (Hsel p c Hc), (Hp2 c (Hids c Hc)). apply Hproj. apply Hids. exact Hc.
      + assert (cols = [n_index e]) as Hcols by (unfold cols; destruct (n_created e); [rewrite Ec; reflexivity | reflexivity]). fold cols in Fin, Fcov, Hq. rewrite Hcols in *.
        destruct (first_rows_spec (n_index e) both) as (G1 & _ & _). destruct (Fcov _ Hb) as (p & Hp1 & Hp2). specialize (Hp2 _ (or_introl eq_refl)). rewrite (Hproj r _ Hiin) in Hp2.
        assert (p = proj r) as ->.
        { pose proof (G1 p Hp1) as Hf. unfold first_with, both in Hf. rewrite find_app in Hf. destruct (find _ (t_rows (n_tab e))) as [x|] eqn:Ex.
          - exfalso. injection Hf as ->. apply find_some in Ex as [Ex _]. apply Hni. rewrite <- Hp2. apply in_map. exact Ex.
          - rewrite find_map in Hf. destruct (find _ (t_rows (n_tab o))) as [y|] eqn:Ey; [|discriminate]. injection Hf as <-. apply find_some in Ey as [Ey1 _]. f_equal.
            eapply NoDup_map_eq; [exact Hob | exact Ey1 | exact Hr|]. rewrite (Hproj y _ Hiin) in Hp2. exact Hp2. }
        exists (map (fun c => (c, cell c (proj r))) ids). split; [apply Hq; eauto|]. intros c Hc. rewrite (Hsel _ c Hc). apply Hproj. apply Hids. exact Hc.
  Qed.

  (** ** success *)
  Lemma find_NoDup (vs : list variable) v : NoDup (map v_id vs) -> In v vs -> find (fun w => String.eqb (v_id w) (v_id v)) vs = Some v.
  Proof.
    induction vs as [|w vs IH]; intros Hn Hin; [destruct Hin|]. cbn in Hn |- *. inversion Hn as [|? ? Hna Hn']; subst. destruct Hin as [->|Hin]; [rewrite String.eqb_refl; reflexivity|].
    destruct (String.eqb_spec (v_id w) (v_id v)) as [Heq|]; [destruct Hna; rewrite Heq; apply in_map; exact Hin | auto].
  Qed.
  Lemma column_kind_timed k e c : NoDup (map v_id (n_vars e)) -> timed k e c -> column_kind obj_kind e c = Ok (Some k).
  Proof.
    intros Hn [(d & Hd & Hk) (v & Hv & Hc & Hty)]. unfold column_kind. destruct (t_rows (n_tab e)) as [|r l].
    - unfold get_var. rewrite <- Hc, (find_NoDup _ _ Hn Hv). cbn. destruct Hty as [[-> [-> | ->]]|[-> [-> | ->]]]; reflexivity.
    - rewrite Hd. cbn. destruct Hk as [[-> ->]|[[-> | ->] ->]]; reflexivity.
  Qed.
  Lemma replace_ids id v' vs : v_id v' = id -> map v_id (replace_first id v' vs) = map v_id vs.
  Proof. intros Hv. induction vs as [|v vs IH]; cbn; [reflexivity|]. destruct (String.eqb_spec (v_id v) id) as [Heq|]; cbn; congruence. Qed.
  Lemma replace_other id v' vs w : In w vs -> v_id w <> id -> In w (replace_first id v' vs).
  Proof. induction vs as [|v vs IH]; cbn; intros Hin Hne; [destruct Hin|]. destruct (String.eqb_spec (v_id v) id) as [Heq|]; destruct Hin as [->|Hin]; [contradiction | right; exact Hin | left; reflexivity | right; auto]. Qed.
  Lemma replace_same id v' vs : In id (map v_id vs) -> In v' (replace_first id v' vs).
  Proof. induction vs as [|v vs IH]; cbn; intros Hin; [destruct Hin|]. destruct (String.eqb_spec (v_id v) id) as [Heq|]; [left; reflexivity|]. right. apply IH. destruct Hin; [contradiction | assumption]. Qed.
  Lemma get_var_total id vs : In id (map v_id vs) -> exists v, get_var id vs = Ok v /\ v_id v = id.
  Proof.
    unfold get_var. induction vs as [|v vs IH]; cbn; intros Hin; [destruct Hin|]. destruct (String.eqb_spec (v_id v) id) as [Heq|Hne]; [eauto|]. apply IH. destruct Hin; [contradiction | assumption].
  Qed.
  Lemma convert_total id ty k e : In id (map v_id (n_vars e)) ->
    convert_variable_type to_numeric to_datetime id ty false (k, e) = ((k, with_vars (replace_first id (mkVar id ty [] None) (n_vars e)) e), Ok tt).
  Proof. intros Hin. unfold convert_variable_type, eget, sbind, sret, slift, emod. cbn. destruct (get_var_total id _ Hin) as (v & -> & ->). reflexivity. Qed.

  Lemma secondary_total k e sec : forall done, (forall c, In c (map fst sec) -> column_kind obj_kind e c = Ok (Some k)) ->
    exists sec', secondary_go obj_kind done sec (Some k, e) = ((Some k, e), Ok sec').
  Proof.
    induction sec as [|[c cs] sec IH]; intros done H; cbn [secondary_go]; [unfold sret; eauto|]. unfold sbind at 1. unfold eget at 1. cbn [snd].
    unfold sbind at 1. unfold slift at 1. rewrite (H c (or_introl eq_refl)). unfold sbind at 1. cbn [known_kind]. unfold sret at 1. unfold sbind at 1. cbn [fst].
    replace (tkind_eqb k k) with true by (destruct k; reflexivity). apply IH. intros c' Hc'. apply H. right. exact Hc'.
  Qed.

  Lemma init_total i time sec k e : NoDup (map v_id (n_vars e)) -> In i (map v_id (n_vars e)) -> In i (t_names (n_tab e)) -> NoDup (t_column (n_tab e) i) ->
    (forall c, time = Some c \/ In c (map fst sec) -> c <> i /\ exists k', k = Some k' /\ timed k' e c) ->
    exists e', init i time sec false (k, e) = ((k, e'), Ok tt).
  Proof.
    intros Hn Hi Hit Hnd Ht. unfold L_Tables.init. unfold sbind at 1. unfold set_index. unfold sbind at 1. unfold eget at 1. cbn [snd].
    unfold sbind at 1. unfold slift at 1. apply t_dtype_In in Hit as (d0 & Hd0). rewrite Hd0. unfold sbind at 1. unfold sguard at 1. apply nodup_vals_spec in Hnd. rewrite Hnd. cbn [negb orb].
    unfold sbind at 1. rewrite (convert_total i TIndex k e Hi). unfold emod at 1. cbn [fst snd].
    set (vs1 := replace_first i (mkVar i TIndex [] None) (n_vars e)). set (e1 := with_index i (with_vars vs1 e)).
    assert (map v_id vs1 = map v_id (n_vars e)) as Hids1 by (apply replace_ids; reflexivity).
    assert (forall k' c, c <> i -> timed k' e c -> timed k' e1 c) as T1.
    { intros k' c Hc [Hd (v & Hv & Hvc & Hty)]. split; [exact Hd|]. exists v. split; [apply replace_other; [exact Hv | congruence]|]. split; assumption. }
    assert (exists e2, (match time with Some ti => set_time_index to_numeric to_datetime obj_kind ti false | None => sret tt end) (k, e1) = ((k, e2), Ok tt) /\
              map v_id (n_vars e2) = map v_id (n_vars e) /\ (forall k' c, k = Some k' -> c <> i -> timed k' e c -> timed k' e2 c)) as (e2 & E2 & Hids2 & T2).
    { destruct time as [ti|]; [|exists e1; split; [reflexivity|]; split; [exact Hids1 | intros; apply T1; assumption]].
      destruct (Ht ti (or_introl eq_refl)) as (Hti & k' & -> & Htm). pose proof (T1 k' ti Hti Htm) as Htm1.
      unfold set_time_index. unfold sbind at 1. unfold eget at 1. cbn [snd]. unfold sbind at 1. unfold slift at 1. rewrite (column_kind_timed k' e1 ti); [|cbn; rewrite Hids1; exact Hn | exact Htm1].
      unfold sbind at 1. cbn [known_kind]. unfold sret at 1. unfold sbind at 1. unfold claim_kind at 1. cbn [fst]. replace (tkind_eqb k' k') with true by (destruct k'; reflexivity).
      destruct Htm1 as [(d & Hd & Hk) (v & Hv & Hvc & Hty)]. unfold sbind at 1. unfold slift at 1. rewrite Hd. cbv zeta. unfold sbind at 1. unfold emod at 1. cbn [fst snd]. unfold sbind at 1.
      set (date := (dtype_eqb d DDate || match t_rows (n_tab e1) with [] => false | _ => tkind_eqb k' KDate end)%bool).
      assert (In ti (map v_id vs1)) as Hin by (apply (in_map v_id) in Hv; rewrite Hvc in Hv; exact Hv).
      match goal with |- context [convert_variable_type _ _ ti ?ty false (?kk, ?ee)] => rewrite (convert_total ti ty kk ee Hin) end. unfold emod at 1. cbn [fst snd].
      eexists. split; [reflexivity|]. cbn [n_vars with_time with_vars with_tab]. split; [rewrite <- Hids1; apply replace_ids; reflexivity|].
      intros k'' c Hk'' Hc Htc. injection Hk'' as <-. destruct (T1 k' c Hc Htc) as [Hdc (w & Hw & Hwc & Hwt)]. split; [exact Hdc|]. cbn [n_vars with_time with_vars with_tab e1 with_index].
      destruct (String.eqb_spec c ti) as [->|Hne].
      - exists (mkVar ti (if date then TDatetimeTimeIndex else TNumericTimeIndex) [] None). split; [apply replace_same; exact Hin|]. split; [reflexivity|]. cbn [v_type].
        destruct Hk as [[-> ->]|[Hdn ->]].
        + left. split; [reflexivity|]. unfold date. cbn. right. reflexivity.
        + right. split; [reflexivity|]. unfold date. replace (match t_rows (n_tab e1) with [] => false | _ => tkind_eqb KNum KDate end) with false by (destruct (t_rows (n_tab e1)); reflexivity). destruct Hdn as [-> | ->]; cbn; right; reflexivity.
      - exists w. split; [apply replace_other; [exact Hw | congruence]|]. split; assumption. }
    unfold sbind at 1. match goal with |- context [let (s', r) := ?m in _] => assert (m = ((k, e2), Ok tt)) as -> by exact E2 end. unfold set_secondary_time_index. unfold sbind at 1.
    assert (exists sec', secondary_go obj_kind [] sec (k, e2) = ((k, e2), Ok sec')) as (sec' & ->).
    { destruct sec as [|[c0 cs0] sec0]; [exists []; reflexivity|]. destruct (Ht c0 (or_intror (or_introl eq_refl))) as (_ & k' & -> & _). apply secondary_total. intros c Hc.
      destruct (Ht c (or_intror Hc)) as (Hci & k'' & Hk & Htm). injection Hk as <-. apply column_kind_timed; [rewrite Hids2; exact Hn|]. apply T2; auto. }
    unfold emod. cbn. eauto.
  Qed.

  Lemma t_select_total t cs : (forall c, In c cs -> exists d, t_dtype t c = Ok d) -> exists t', t_select t cs = Ok t'.
  Proof.
    intros H. unfold t_select. assert (exists ds, mapM (fun c => do d <- t_dtype t c; Ok (c, d)) cs = Ok ds) as (ds & ->); [|cbn; eauto].
    induction cs as [|c cs IH]; [exists []; reflexivity|]. cbn [mapM]. destruct (H c (or_introl eq_refl)) as (d & ->). cbn. destruct IH as (ds & ->); [intros c' Hc'; apply H; right; exact Hc'|]. cbn. eauto.
  Qed.
  Lemma dget_map_key {A} (D : string -> A) cs c : In c cs -> dget String.eqb c (map (fun x => (x, D x)) cs) = Some (D c).
  Proof. induction cs as [|a cs IH]; [intros []|]. cbn. intros [->|Hin]; [rewrite String.eqb_refl; reflexivity|]. destruct (String.eqb_spec c a) as [->|]; [reflexivity | auto]. Qed.

  Lemma update_total id t s e : dget String.eqb id (s_ents s) = Some e -> sound (s_kind s) e ->
    List.length (t_cols t) = List.length (n_vars e) -> (forall c, In c (map v_id (n_vars e)) -> t_dtype t c = t_dtype (n_tab e) c) -> NoDup (t_column t (n_index e)) ->
    exists s' e', update_data id t false false s = (s', Ok tt) /\ s_kind s' = s_kind s /\ s_ents s' = dset String.eqb id e' (s_ents s).
  Proof.
    intros He (Hn & Hlen & Hincl & Hi & Ht) Hl Hd Hnd.
    assert (forall c, In c (map v_id (n_vars e)) -> exists d, t_dtype t c = Ok d) as Hdt by (intros c Hc; rewrite Hd by exact Hc; apply t_dtype_In; apply Hincl; exact Hc).
    destruct (t_select_total t (map v_id (n_vars e)) Hdt) as (t' & Hsel). pose proof (t_select_Ok _ _ _ Hsel) as (S1 & S2 & _ & D & S3 & S4).
    destruct (init_total (n_index e) (n_time e) (n_sec e) (s_kind s) (with_tab t' e)) as (e' & Hinit); [exact Hn | exact Hi | cbn; rewrite S1; exact Hi | | |].
    { cbn [n_tab with_tab]. unfold t_column. rewrite S2, map_map. erewrite map_ext; [exact Hnd|]. intros r. apply cell_select. exact Hi. }
    { intros c Hc. destruct (Ht c Hc) as (Hci & k' & Hk & (d & Hdc & Hkd) & Hv). split; [exact Hci|]. exists k'. split; [exact Hk|]. split; [|exact Hv]. exists d. split; [|exact Hkd].
      cbn [n_tab with_tab]. destruct Hv as (v & Hv & Hvc & _). assert (In c (map v_id (n_vars e))) as Hcin by (rewrite <- Hvc; apply in_map; exact Hv).
      unfold t_dtype. rewrite S3, dget_map_key by exact Hcin. rewrite <- S4, Hd by exact Hcin. exact Hdc. }
    exists (with_meta None (with_kind (s_kind s) (with_ents (dset String.eqb id e' (s_ents s)) s))), e'. split; [|split; reflexivity].
    unfold M_Entities.update_data. unfold sbind at 1. unfold on_entity. unfold sent at 1. rewrite He.
    match goal with |- context [match ?m with (p, r) => _ end] => assert (m = ((s_kind s, e'), Ok tt)) as -> end.
    { unfold sbind at 1. unfold eget at 1. cbn [snd]. unfold sbind at 1. unfold sguard at 1. rewrite Hl, Nat.eqb_refl. unfold sbind at 1. unfold sguard at 1.
      replace (forallb (fun v => mem_str (v_id v) (t_names t)) (n_vars e)) with true by (symmetry; apply forallb_forall; intros v Hv; apply mem_str_In; apply t_dtype_In; apply Hdt; apply in_map; exact Hv).
      unfold sbind at 1. unfold slift at 1. rewrite Hsel. unfold sbind at 1. unfold emod at 1. cbn [fst snd]. exact Hinit. }
    unfold sbind at 1. unfold sget at 1. unfold sbind at 1. unfold slift at 1. unfold sent at 1. cbn [s_ents with_kind with_ents]. rewrite (dget_dset_same _ String.eqb_spec). unfold sbind, sret, reset_meta, smod. reflexivity.
  Qed.

  Lemma updates_total b l : forall s, NoDup (map fst l) -> (forall id e, In (id, e) l -> dget String.eqb id (s_ents s) = Some e) ->
    (forall id e, In (id, e) l -> sound (s_kind s) e /\ n_created e <> Some (n_index e) /\ exists o, dget String.eqb id (s_ents b) = Some o) ->
    exists s', siter (fun ie => o <~ slift (sent (fst ie) b) ;; update_data (fst ie) (concat_table (snd ie) o) false false) l s = (s', Ok tt).
  Proof.
    induction l as [|[id e] l IH]; intros s Hn Hin Hok; cbn [siter]; [unfold sret; eauto|]. cbn [map fst] in Hn. inversion Hn as [|? ? Hni Hn']; subst.
    destruct (Hok id e (or_introl eq_refl)) as (Hs & Hcr & o & Ho).
    destruct (update_total id (concat_table e o) s e (Hin id e (or_introl eq_refl)) Hs) as (s1 & e' & E & Hk & He); [cbn; apply Hs | reflexivity | |].
    { unfold concat_table, t_column. cbn [t_rows]. assert (match n_created e with Some c => if String.eqb c (n_index e) then t_names (n_tab e) else [n_index e] | None => [n_index e] end = [n_index e]) as ->.
      { destruct (n_created e) as [c|]; [|reflexivity]. destruct (String.eqb_spec c (n_index e)) as [->|]; [contradiction | reflexivity]. }
      destruct (first_rows_spec (n_index e) (t_rows (n_tab e) ++ map (fun r => map (fun c => (c, cell c r)) (t_names (n_tab e))) (t_rows (n_tab o)))) as (_ & Hfn & _).
      destruct (n_time e); (eapply Permutation_NoDup; [apply Permutation_map; symmetry; apply isort_perm | exact Hfn]). }
    unfold sbind at 1. unfold sbind at 1. unfold slift at 1. cbn [fst snd]. unfold sent at 1. rewrite Ho. rewrite E. apply IH; [exact Hn' | |].
    - intros id0 e0 H0. rewrite He, (dget_dset_other _ String.eqb_spec); [apply Hin; right; exact H0|]. intros ->. apply Hni. apply (in_map fst) in H0. exact H0.
    - intros id0 e0 H0. rewrite Hk. apply Hok. right. exact H0.
  Qed.

  (** *** It succeeds for equal schemas, if the entities are sound and no index was made by make_index (compare
      [C40_created_index_refuted]). *)
  Theorem C40_succeeds_partial a b : NoDup (map fst (s_ents a)) -> eset_eqb a b = true -> s_rels a = s_rels b ->
    (forall id e, dget String.eqb id (s_ents a) = Some e -> sound (s_kind a) e /\ n_created e <> Some (n_index e)) ->
    exists s', concat a b a = (s', Ok tt).
  Proof.
    intros Hn Heq Hr Hs. unfold M_Entities.concat. unfold sbind at 1. unfold sguard at 1. rewrite Heq. assert (rels_eqb (s_rels a) (s_rels b) = true) as ->.
    { rewrite Hr. unfold rels_eqb. rewrite Nat.eqb_refl. cbn [andb]. clear. induction (s_rels b) as [|r l IH]; [reflexivity|]. cbn. rewrite IH, andb_true_r. destruct (rel_eqb_spec' r r); congruence. }
    cbn [andb]. destruct (updates_total b (s_ents a) a Hn (fun i x Hx => dget_NoDup_In _ String.eqb_spec i x (s_ents a) Hn Hx)) as (s1 & E).
    { intros id e Hin. pose proof (dget_NoDup_In _ String.eqb_spec id e (s_ents a) Hn Hin) as Hg. destruct (Hs id e Hg) as [H1 H2]. split; [exact H1|]. split; [exact H2|].
      unfold eset_eqb, eset_eqb_with in Heq. apply andb_true_iff in Heq as [Heq _]. apply andb_true_iff in Heq as [_ Heq]. rewrite forallb_forall in Heq. specialize (Heq _ Hin). cbn [fst snd] in Heq.
      destruct (dget String.eqb id (s_ents b)) as [o|]; [eauto | discriminate]. }
    unfold sbind at 1. rewrite E. unfold add_last_time_indexes, sbind, sget, smod, reset_meta. eexists. reflexivity.
  Qed.
End C40.

(** ** Concrete combinations *)
Notation concat0 := (concat nr dt okd tch lts).
Definition left_set : eset := after [mk_events rows1; Normalize (n_args ["x"]) []].
Definition right_set : eset := after [mk_events [(9, 30, 6, 5); (4, 20, 9, 1); (8, 10, 2, 7)]%Z; Normalize (n_args ["x"]) []].
Definition left_ents : list (string * ent) := Eval vm_compute in s_ents left_set.

Example C40_nonvacuous : NoDup (map fst (s_ents left_set)) /\ eset_eqb left_set right_set = true /\ s_rels left_set = s_rels right_set /\
  (forall id e, dget String.eqb id (s_ents left_set) = Some e -> sound (s_kind left_set) e /\ n_created e <> Some (n_index e) /\ indexed e) /\
  option_map (fun e => map (fun r => (cell "id" r, cell "t" r)) (t_rows (n_tab e))) (dget String.eqb "events" (s_ents (fst (concat0 left_set right_set left_set)))) =
    Some [(VNum 8, VNum 2); (VNum 2, VNum 5); (VNum 3, VNum 5); (VNum 9, VNum 6); (VNum 1, VNum 7); (VNum 4, VNum 9)].
Proof.
  split; [vm_compute; repeat constructor; cbn; intuition discriminate|]. split; [vm_compute; reflexivity|]. split; [vm_compute; reflexivity|]. split; [|vm_compute; reflexivity].
  intros id e He. assert (s_kind left_set = Some KDate) as -> by (vm_compute; reflexivity).
  apply (dget_In _ String.eqb_spec) in He. assert (s_ents left_set = left_ents) as Hents by (vm_cast_no_check (eq_refl left_ents)). rewrite Hents in He. unfold left_ents in He. clear Hents.
  assert (forall (ids : list string), (fix nd (l : list string) : bool := match l with [] => true | a :: l => negb (mem_str a l) && nd l end) ids = true -> NoDup ids) as Hnd.
  { intros ids. induction ids as [|a l IH]; intros H; constructor; apply andb_true_iff in H as [H1 H2]; [apply mem_str_nIn; apply negb_true_iff; exact H1 | auto]. }
  destruct He as [He|[He|[]]]; injection He as <- <-; unfold sound, indexed; cbn [n_vars n_tab n_index n_time n_sec n_created]; (split; [|split; [discriminate | split; [cbn; tauto | apply nodup_vals_spec; vm_compute; reflexivity]]]).
  all: split; [apply Hnd; reflexivity|]; split; [reflexivity|]; split; [intros c Hc; cbn in Hc |- *; tauto|]; split; [cbn; tauto|].
  all: intros c [Hc|[]]; injection Hc as <-; split; [discriminate|]; exists KDate; split; [reflexivity|]; split; [exists DDate; split; [reflexivity | left; split; reflexivity]|].
  - exists (mkVar "t" TDatetimeTimeIndex [] None). cbn. intuition.
  - exists (mkVar "first_events_time" TDatetimeTimeIndex [] None). cbn. intuition.
Qed.

(** Indexes made with make_index overlap: the two entity sets have one schema, but combining them fails; with inplace the
    entities updated before the failing one keep the combined rows. *)
Definition made (rows : list (Z * Z * Z * Z)) : eset := after [mk_events rows; Create "log" (evs rows) (Some "key") [] true None [] false].
Theorem C40_created_index_refuted : exists a b s', eset_eqb a b = true /\ s_rels a = s_rels b /\ concat0 a b a = (s', Err AssertionError) /\
  option_map (fun e => List.length (t_rows (n_tab e))) (dget String.eqb "events" (s_ents a)) = Some 4%nat /\
  option_map (fun e => List.length (t_rows (n_tab e))) (dget String.eqb "events" (s_ents s')) = Some 5%nat.
Proof.
  exists (made rows1), (made [(9, 30, 6, 5)]%Z), (fst (concat0 (made rows1) (made [(9, 30, 6, 5)]%Z) (made rows1))).
  split; [vm_compute; reflexivity|]. split; [vm_compute; reflexivity|]. split; [vm_compute; reflexivity|]. split; vm_compute; reflexivity.
Qed.
(** Without last time indexes on either side, the result has them all. *)
Theorem C40_last_times_refuted : exists a b s', concat0 a b a = (s', Ok tt) /\
  (forall id e, In (id, e) (s_ents a ++ s_ents b) -> n_lti e = None) /\ (forall id e, In (id, e) (s_ents s') -> n_lti e <> None).
Proof.
  exists left_set, right_set, (fst (concat0 left_set right_set left_set)). split; [vm_compute; reflexivity|].
  set (none := fun ie : string * ent => match n_lti (snd ie) with None => true | Some _ => false end).
  assert (forallb none (s_ents left_set ++ s_ents right_set) = true) as H1 by (vm_compute; reflexivity).
  assert (forallb (fun ie => negb (none ie)) (s_ents (fst (concat0 left_set right_set left_set))) = true) as H2 by (vm_compute; reflexivity).
  rewrite forallb_forall in H1, H2. split; intros id e H.
  - apply H1 in H. clear - H. unfold none in H. cbn in H. destruct (n_lti e); [discriminate | reflexivity].
  - apply H2 in H. clear - H. unfold none in H. cbn in H. destruct (n_lti e); discriminate.
Qed.

Print Assumptions C40_union_partial.
Print Assumptions C40_succeeds_partial.
