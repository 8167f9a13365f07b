From Coq Require Import Sorting.Permutation Sorting.Sorted.
From Verif Require Import Base BaseFacts M_Schema M_Table M_LastTime L_LastTime M_Entities S_Entities S_Calls.
From Verif Require Import P_Equality L_Entities L_Tables P_Relate P_Meta P_Tables.
Local Open Scope string_scope.
Local Open Scope list_scope.

(** ** first rows *)
Lemma first_by_spec key : forall rs seen,
  (forall q, In q (first_by key seen rs) -> ~ In (key q) seen /\ find (fun r => if list_eq_dec val_eq_dec (key r) (key q) then true else false) rs = Some q) /\
  NoDup (map key (first_by key seen rs)) /\
  (forall r, In r rs -> ~ In (key r) seen -> In (key r) (map key (first_by key seen rs))).
Proof.
  induction rs as [|r rs IH]; intros seen; cbn [first_by].
  - split; [intros q []|]. split; [constructor | intros r []].
  - destruct (existsb _ seen) eqn:E.
    + apply existsb_exists in E as (k & Hk & E). destruct (list_eq_dec val_eq_dec (key r) k) as [<-|]; [|discriminate].
      destruct (IH seen) as (A & B & C). split; [|split; [exact B|]].
      * intros q Hq. destruct (A q Hq) as [A1 A2]. split; [exact A1|]. cbn [find]. destruct (list_eq_dec val_eq_dec (key r) (key q)) as [Heq|]; [congruence | exact A2].
      * intros x [<-|Hx] Hn; [contradiction | exact (C x Hx Hn)].
    + assert (~ In (key r) seen) as Hr.
      { intros Hin. enough (existsb (fun k => if list_eq_dec val_eq_dec (key r) k then true else false) seen = true) by congruence. apply existsb_exists. exists (key r). split; [exact Hin|]. destruct (list_eq_dec val_eq_dec (key r) (key r)); congruence. }
      destruct (IH (key r :: seen)) as (A & B & C). split; [|split].
      * intros q [<-|Hq].
        -- split; [exact Hr|]. cbn [find]. destruct (list_eq_dec val_eq_dec (key r) (key r)); congruence.
        -- destruct (A q Hq) as [A1 A2]. split; [intros Hin; apply A1; right; exact Hin|]. cbn [find]. destruct (list_eq_dec val_eq_dec (key r) (key q)) as [Heq|]; [|exact A2]. destruct A1. left. exact Heq.
      * cbn [map]. constructor; [|exact B]. intros Hin. apply in_map_iff in Hin as (q & Hk & Hq). destruct (A q Hq) as [A1 _]. apply A1. left. symmetry. exact Hk.
      * intros x [<-|Hx] Hn; [left; reflexivity|]. destruct (list_eq_dec val_eq_dec (key r) (key x)) as [Heq|Hne]; [left; exact Heq|]. right. apply (C x Hx). intros [H|H]; [exact (Hne H) | exact (Hn H)].
Qed.
Lemma find_ext {A} (f g : A -> bool) l : (forall x, f x = g x) -> find f l = find g l.
Proof. intros H. induction l as [|a l IH]; cbn; [reflexivity|]. rewrite H, IH. reflexivity. Qed.
Lemma first_rows_spec i rs :
  (forall q, In q (first_rows [i] rs) -> first_with i (cell i q) rs = Some q) /\
  NoDup (map (cell i) (first_rows [i] rs)) /\
  (forall v, In v (map (cell i) (first_rows [i] rs)) <-> In v (map (cell i) rs)).
Proof.
  unfold first_rows. destruct (first_by_spec (fun r => map (fun c => cell c r) [i]) rs []) as (A & B & C). cbn [map] in A, B, C.
  assert (forall q, In q (first_by (fun r => [cell i r]) [] rs) -> first_with i (cell i q) rs = Some q) as A'.
  { intros q Hq. destruct (A q Hq) as [_ Hf]. unfold first_with. rewrite <- Hf. apply find_ext. intros x. destruct (val_eqb_spec (cell i x) (cell i q)) as [Heq|Hne]; destruct (list_eq_dec val_eq_dec [cell i x] [cell i q]) as [H|H]; auto; [rewrite Heq in H; congruence | congruence]. }
  split; [exact A'|]. split.
  - apply (NoDup_map_inv (fun v => [v])). rewrite map_map. exact B.
  - intros v. split; intros Hv.
    + apply in_map_iff in Hv as (q & <- & Hq). apply in_map. apply A' in Hq. apply find_some in Hq as [Hq _]. exact Hq.
    + apply in_map_iff in Hv as (r & <- & Hr). specialize (C r Hr (fun f => f)). apply in_map_iff in C as (q & Hk & Hq). injection Hk as Hk. rewrite <- Hk. apply in_map. exact Hq.
Qed.

(** ** tables *)
Lemma cell_built (g : string -> string) (f : string -> val) cs c : NoDup (map g cs) -> In c cs -> cell (g c) (map (fun x => (g x, f x)) cs) = f c.
Proof.
  unfold cell, dget. induction cs as [|a cs IH]; intros Hn Hin; [destruct Hin|]. cbn [map] in *. inversion Hn as [|? ? Hna Hn']; subst. cbn [find fst]. destruct Hin as [->|Hin].
  - rewrite String.eqb_refl. reflexivity.
  - destruct (String.eqb_spec (g c) (g a)) as [Heq|]; [|apply IH; assumption]. destruct Hna. rewrite <- Heq. apply in_map. exact Hin.
Qed.
Lemma cell_select cs (r : row) c : In c cs -> cell c (map (fun x => (x, cell x r)) cs) = cell c r.
Proof.
  intros Hin. unfold cell at 1, dget. induction cs as [|a cs IH]; [destruct Hin|]. cbn [map find fst]. destruct (String.eqb_spec c a) as [->|Hne]; [reflexivity|]. apply IH. destruct Hin; [congruence | assumption].
Qed.
Lemma t_select_Ok t cs t' : t_select t cs = Ok t' ->
  t_names t' = cs /\ t_rows t' = map (fun r => map (fun c => (c, cell c r)) cs) (t_rows t) /\
  (forall c, In c cs -> In c (t_names t)) /\ (exists D, t_cols t' = map (fun c => (c, D c)) cs /\ forall c, In c cs -> t_dtype t c = Ok (D c)).
Proof.
  unfold t_select. intros H. destruct (mapM _ cs) as [ds|] eqn:E; [|discriminate]. cbn in H. injection H as <-. unfold t_names. cbn [t_cols t_rows].
  set (D := fun c => match t_dtype t c with Ok d => d | Err _ => DObj end).
  assert (ds = map (fun c => (c, D c)) cs /\ forall c, In c cs -> t_dtype t c = Ok (D c)) as [Hds HD].
  { revert ds E. induction cs as [|a cs IH]; cbn [mapM]; intros ds E; [injection E as <-; split; [reflexivity | intros c []]|].
    destruct (t_dtype t a) as [d|] eqn:Ed; [|discriminate]. cbn in E. destruct (mapM _ cs) as [ds'|]; [|discriminate]. cbn in E. injection E as <-. destruct (IH ds' eq_refl) as [-> H].
    split; [cbn; unfold D at 2; rewrite Ed; reflexivity|]. intros c [<-|Hc]; [unfold D; rewrite Ed; reflexivity | exact (H c Hc)]. }
  split; [rewrite Hds, map_map; cbn; apply map_id|]. split; [reflexivity|]. split; [intros c Hc; apply t_dtype_In; eauto|]. exists D. split; assumption.
Qed.

Section Ops.
  Variables to_numeric to_datetime : list val -> res (dtype * list val).
  Variable obj_kind : val -> res (option tkind).
  Variable infer : table -> string -> vtype.

  Definition compat (ty : vtype) (d : dtype) : Prop := (is_numeric_type ty = true -> numeric_dtype d = true) /\ (is_datetime_type ty = true -> d = DDate).
  Lemma convert_all_id t tys t' : (forall c ty d, In (c, ty) tys -> t_dtype t c = Ok d -> compat ty d) -> convert_all to_numeric to_datetime t tys = Ok t' -> t' = t.
  Proof.
    unfold convert_all. induction tys as [|[c ty] tys IH]; intros Hc H; cbn [foldM] in H; [congruence|].
    destruct (convert_one to_numeric to_datetime t (c, ty)) as [t1|] eqn:E; [|discriminate]. cbn in H.
    assert (t1 = t) as ->.
    { unfold convert_one in E. destruct (t_dtype t c) as [d|] eqn:Ed; [|discriminate]. cbn in E. destruct (Hc c ty d (or_introl eq_refl) Ed) as [C1 C2].
      destruct (is_numeric_type ty) eqn:E1; [rewrite (C1 eq_refl) in E; cbn in E|cbn in E]; (destruct (is_datetime_type ty) eqn:E2; [rewrite (C2 eq_refl) in E; cbn in E|cbn in E]); congruence. }
    apply IH; [|exact H]. intros c' ty' d Hin. apply Hc. right. exact Hin.
  Qed.

  Lemma create_variables_Ok t given i vt : create_variables to_numeric to_datetime infer t given i = Ok vt ->
    convert_all to_numeric to_datetime t (all_types infer t given i) = Ok (snd vt) /\ forall c, In c (t_names t) -> In c (map v_id (fst vt)).
  Proof.
    unfold create_variables. intros H. destruct (convert_all _ _ t _) as [t'|] eqn:E; [|discriminate]. cbn in H.
    set (vs := map (fun ct => mkVar (fst ct) (snd ct) [] None) (all_types infer t given i)) in *.
    destruct (filter (fun v => v_id v =? i) vs) as [|iv rest] eqn:Ef; [discriminate|]. injection H as <-. split; [reflexivity|]. cbn [fst].
    assert (v_id iv = i) as Hi by (assert (In iv (filter (fun v => v_id v =? i) vs)) as Hin by (rewrite Ef; left; reflexivity); apply filter_In in Hin as [_ Hin]; apply String.eqb_eq; exact Hin).
    intros c Hc. cbn [map]. destruct (String.eqb_spec c i) as [->|Hne]; [left; exact Hi|]. right.
    assert (In c (map v_id vs)) as Hin.
    { unfold vs. rewrite map_map. cbn. unfold all_types. rewrite map_app, map_map. cbn. set (g := if mem_str i (map fst given) then given else given ++ [(i, TIndex)]). rewrite map_id, in_app_iff.
      destruct (mem_str c (map fst g)) eqn:Em; [right; apply mem_str_In; exact Em|]. left. apply filter_In. split; [exact Hc|]. rewrite Em. reflexivity. }
    apply in_map_iff in Hin as (v & Hv & Hin). apply in_map_iff. exists v. split; [exact Hv|]. apply filter_In. split; [exact Hin|]. rewrite Hv. apply negb_true_iff, String.eqb_neq. exact Hne.
  Qed.

  (** ** the entity created from a frame whose types fit *)
  Lemma create_Ok id t i given time sec srt s s' : In i (t_names t) ->
    (forall c ty d, In (c, ty) (all_types infer t given i) -> t_dtype t c = Ok d -> compat ty d) ->
    entity_from_dataframe to_numeric to_datetime obj_kind infer id t (Some i) given false time sec srt s = (s', Ok tt) ->
    NoDup (t_names t) /\ s_rels s' = s_rels s /\ s_id s' = s_id s /\
    exists e, s_ents s' = dset String.eqb id e (s_ents s) /\ n_index e = i /\ n_time e = time /\ indexed e /\ n_id e = id /\
      (forall c d, t_dtype t c = Ok d -> t_dtype (n_tab e) c = Ok d) /\
      exists rs, Permutation rs (t_rows (n_tab e)) /\ Forall2 (fun r q => forall c, In c (t_names t) -> cell c q = cell c r) (t_rows t) rs.
  Proof.
    intros Hi Hc H. unfold entity_from_dataframe in H.
    apply sbind_Ok in H as (u & s1 & E & H). apply sguard_Ok in E as [_ ->]. apply sbind_Ok in H as (u1 & s1 & E & H). apply sguard_Ok in E as [_ ->].
    apply sbind_Ok in H as (e & s1 & E & H). destruct (new_entity _ _ _ _ _ _ _ _ _ _ _ _ _) as [k x] eqn:En in E. injection E as <- ->.
    unfold sbind, smod, reset_meta in H. injection H as <-. apply new_entity_Ok in En as (cr & i' & t1 & vt & t2 & E1 & E2 & E3 & Hnd & _ & Hin).
    unfold create_index in E1. apply mem_str_In in Hi as Hi'. rewrite Hi' in E1. cbn in E1. injection E1 as <- <- <-.
    apply create_variables_Ok in E2 as [Ecv Evars]. apply convert_all_id in Ecv; [|exact Hc].
    rewrite Ecv in E3. apply t_select_Ok in E3 as (S1 & S2 & S3 & D & S4 & S5).
    apply init_Ok in Hin as (A & Bi & Bid & _ & _ & Bt & Btab & _). cbn [n_time n_tab n_id] in Bt, Btab, Bid.
    split; [exact Hnd|]. split; [reflexivity|]. split; [reflexivity|]. exists e. split; [reflexivity|]. split; [exact Bi|]. split; [rewrite Bt; destruct time; reflexivity|]. split; [exact A|]. split; [exact Bid|].
    assert (t_cols (n_tab e) = t_cols t2) as Hcols by (rewrite Btab; destruct time; [apply sorted_table_cols | reflexivity]).
    assert (Permutation (t_rows t2) (t_rows (n_tab e))) as Hp by (rewrite Btab; destruct time; [apply sorted_table_perm | reflexivity]).
    split.
    - intros c d Hd. assert (In c (t_names t)) as Hin by (apply t_dtype_In; eauto). specialize (Evars c Hin). specialize (S5 c Evars). unfold t_dtype. rewrite Hcols, S4.
      rewrite Hd in S5. injection S5 as ->. clear - Evars. induction (map v_id (fst vt)) as [|a l IH]; [destruct Evars|]. unfold dget. cbn [map find fst]. destruct (String.eqb_spec c a) as [->|Hne]; [reflexivity|].
      apply IH. destruct Evars; [congruence | assumption].
    - exists (t_rows t2). split; [exact Hp|]. rewrite S2. clear - Evars. induction (t_rows t) as [|r l IH]; cbn [map]; constructor; [|exact IH]. intros c Hc. apply cell_select. apply Evars. exact Hc.
  Qed.
End Ops.
