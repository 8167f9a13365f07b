(** C77: inferred variable types. *)
From Coq Require Import Permutation.
From Verif Require Import Base BaseFacts M_Types M_Infer S_Infer.
Local Open Scope Z_scope.

Lemma sum_perm (a b : list Z) : Permutation a b -> fold_right Z.add 0 a = fold_right Z.add 0 b.
Proof. induction 1; cbn [fold_right]; lia. Qed.
Lemma perm_flat {A B} (f : A -> list B) l l' : Permutation l l' -> Permutation (flat_map f l) (flat_map f l').
Proof. intros H. rewrite !flat_map_concat_map. induction H; cbn [map List.concat]; [constructor | apply Permutation_app_head; assumption | rewrite !app_assoc; apply Permutation_app_tail, Permutation_app_comm | etransitivity; eassumption]. Qed.
Lemma forallb_perm {A} (f : A -> bool) l l' : Permutation l l' -> forallb f l = forallb f l'.
Proof. intros H. destruct (forallb f l) eqn:E; symmetry; [rewrite forallb_forall in *; intros x Hx; apply E; exact (Permutation_in _ (Permutation_sym H) Hx)|].
  destruct (forallb f l') eqn:E'; [|reflexivity]. rewrite <- E. symmetry. rewrite forallb_forall in *. intros x Hx. apply E'. exact (Permutation_in _ H Hx). Qed.

Section Infer.
  Variable cellv : Type.
  Variable same : cellv -> cellv -> bool.
  Hypothesis same_refl : forall a, same a a = true.
  Hypothesis same_sym : forall a b, same a b = true -> same b a = true.
  Hypothesis same_trans : forall a b c, same a b = true -> same b c = true -> same a c = true.
  Variable missing is_datetime numeric_text date_text : cellv -> bool.
  Variable len : cellv -> option Z.
  Variable has_str : list cellv -> bool.
  (** a column without the .str accessor has no texts, lists or other values with a length *)
  Hypothesis no_str : forall vs v, has_str vs = false -> In v vs -> len v = None.
  Notation icol := (icol cellv).
  Notation infer_one := (infer_one cellv same missing is_datetime numeric_text date_text len has_str).
  Notation infer := (infer_variable_types cellv same missing is_datetime numeric_text date_text len has_str).
  Notation dates := (dates cellv missing is_datetime numeric_text date_text).
  Notation is_dt := (col_is_datetime cellv missing is_datetime numeric_text date_text).
  Notation deserves := (deserves cellv same missing is_datetime numeric_text date_text len).
  Notation drawn := (drawn cellv).
  Notation long_texts := (long_texts cellv len).
  Notation few_values := (few_values cellv same).
  (** a sample of n values: n of the values *)
  Definition samples (sample : nat -> list cellv -> list cellv) : Prop :=
    forall n l, (n <= List.length l)%nat -> List.length (sample n l) = n /\ exists rest, Permutation (sample n l ++ rest) l.

  Lemma is_dt_dates c : is_dt c = true <-> dates c.
  Proof.
    unfold col_is_datetime. destruct (dkind_eqb (o_dtype _ c) KDatetime) eqn:Ed; cbn [orb].
    - split; [|reflexivity]. intros _. apply dates_dtype. destruct (o_dtype _ c); try discriminate Ed. reflexivity.
    - destruct (match o_vals _ c with v :: _ => is_datetime v | [] => false end) eqn:Ef.
      + split; [|reflexivity]. intros _. destruct (o_vals _ c) as [|v vs] eqn:Ev; [discriminate Ef|]. exact (dates_first _ _ _ _ _ c v vs Ev Ef).
      + set (known := filter (fun v => negb (missing v)) (o_vals _ c)).
        assert (forall v, In v known <-> In v (o_vals _ c) /\ missing v = false) as Hk by (intros v; unfold known; rewrite filter_In, negb_true_iff; reflexivity).
        split.
        * intros E. destruct (forallb numeric_text known) eqn:En; [discriminate E|].
          destruct (dkind_eqb (o_dtype _ c) KString || dkind_eqb (o_dtype _ c) KObject)%bool eqn:Es; [|discriminate E]. apply dates_text.
          -- destruct (o_dtype _ c); try discriminate Es; auto.
          -- assert (exists v, In v known /\ numeric_text v = false) as (v & Hv & Hn).
             { clear - En. induction known as [|a l IH]; [discriminate En|]. cbn [forallb] in En. destruct (numeric_text a) eqn:Ea; [destruct (IH En) as (v & Hv & H); exists v; split; [right; exact Hv | exact H] | exists a; split; [left; reflexivity | exact Ea]]. }
             apply Hk in Hv as [H1 H2]. exists v. auto.
          -- rewrite forallb_forall in E. intros v H1 H2. apply E, Hk. auto.
        * intros [H|v vs Ev H|H (v & H1 & H2 & H3) Ha].
          -- rewrite H in Ed. discriminate Ed.
          -- rewrite Ev in Ef. congruence.
          -- destruct (forallb numeric_text known) eqn:En; [rewrite forallb_forall in En; specialize (En v (proj2 (Hk v) (conj H1 H2))); congruence|].
             assert ((dkind_eqb (o_dtype _ c) KString || dkind_eqb (o_dtype _ c) KObject)%bool = true) as -> by (destruct H as [-> | ->]; reflexivity).
             apply forallb_forall. intros w Hw. apply Hk in Hw as [Hw1 Hw2]. exact (Ha w Hw1 Hw2).
  Qed.
  Lemma lens_perm vs : map Some (flat_map (fun v => match len v with Some n => [n] | None => [] end) vs) = filter (fun o => match o with Some _ => true | None => false end) (map len vs).
  Proof. induction vs as [|v vs IH]; [reflexivity|]. cbn [flat_map map filter]. destruct (len v); cbn [app map]; rewrite IH; reflexivity. Qed.
  Lemma long_ok vs : long_texts vs = true <-> long cellv len vs.
  Proof.
    unfold M_Infer.long_texts. set (ls := flat_map _ vs). rewrite Z.ltb_lt. split.
    - intros H. exists ls. split; [unfold ls; rewrite lens_perm; apply Permutation_refl | exact H].
    - intros (ls' & Hp & H). rewrite <- lens_perm in Hp. fold ls in Hp. assert (Permutation ls' ls) as Hq.
      { apply Permutation_map with (f := fun o => match o with Some z => z | None => 0 end) in Hp. rewrite !map_map, !map_id in Hp. exact Hp. }
      rewrite <- (Permutation_length Hq), <- (sum_perm _ _ Hq). exact H.
  Qed.
  Lemma long_perm vs vs' : Permutation vs vs' -> long_texts vs = long_texts vs'.
  Proof. intros H. unfold M_Infer.long_texts. apply (perm_flat (fun v => match len v with Some n => [n] | None => [] end)) in H. rewrite (Permutation_length H), (sum_perm _ _ H). reflexivity. Qed.

  Lemma cover_le us : forall ds, ForallOrdPairs (fun a b => same a b = false) us -> (forall u, In u us -> exists d, In d ds /\ same u d = true) -> (List.length us <= List.length ds)%nat.
  Proof.
    induction us as [|u us IH]; intros ds Hp Hc; [cbn; lia|]. inversion Hp as [|a b H1 H2]; subst. destruct (Hc u (or_introl eq_refl)) as (d & Hd & E). apply in_split in Hd as (l1 & l2 & ->).
    assert (List.length us <= List.length (l1 ++ l2))%nat as H; [|rewrite app_length in *; cbn [List.length]; lia].
    apply IH; [exact H2|]. intros w Hw. destruct (Hc w (or_intror Hw)) as (d' & Hd' & E'). exists d'. split; [|exact E']. apply in_app_or in Hd'. apply in_or_app. destruct Hd' as [H|[<- | H]]; auto. exfalso.
    rewrite Forall_forall in H1. specialize (H1 w Hw). rewrite (same_trans u d w E (same_sym _ _ E')) in H1. discriminate H1.
  Qed.
  Lemma dedup_spec vs : forall seen, let ds := dedup_by same seen vs in (forall d, In d ds -> In d vs /\ forall s, In s seen -> same d s = false) /\
    (forall v, In v vs -> exists d, (In d ds \/ In d seen) /\ same v d = true) /\ ForallOrdPairs (fun a b => same a b = false) ds.
  Proof.
    induction vs as [|v vs IH]; intros seen; cbn [dedup_by]; [split; [intros d []|]; split; [intros d [] | constructor]|].
    destruct (existsb (same v) seen) eqn:E.
    - destruct (IH seen) as (Ha & Hb & Hc). split; [|split; [|exact Hc]].
      + intros d Hd. split; [right; apply Ha; exact Hd | apply Ha; exact Hd].
      + intros w [<- | Hw]; [apply existsb_exists in E as (s & Hs & E); exists s; auto | exact (Hb w Hw)].
    - destruct (IH (v :: seen)) as (Ha & Hb & Hc). assert (forall s, In s seen -> same v s = false) as Hv.
      { intros s Hs. destruct (same v s) eqn:Es; [|reflexivity]. rewrite <- E. symmetry. apply existsb_exists. exists s. auto. }
      split; [|split].
      + intros d [<- | Hd]; [split; [left; reflexivity | exact Hv]|]. destruct (Ha d Hd) as [H1 H2]. split; [right; exact H1 | intros s Hs; apply H2; right; exact Hs].
      + intros w [<- | Hw]; [exists v; split; [left; left; reflexivity | apply same_refl]|]. destruct (Hb w Hw) as (d & [Hd|[<- | Hd]] & Ed); [exists d; split; [left; right; exact Hd | exact Ed] | exists v; split; [left; left; reflexivity | exact Ed] | exists d; auto].
      + constructor; [|exact Hc]. apply Forall_forall. intros d Hd. destruct (same v d) eqn:Es; [|reflexivity]. apply same_sym in Es. rewrite (proj2 (Ha d Hd) v (or_introl eq_refl)) in Es. discriminate Es.
  Qed.
  Lemma few_ok vs : few_values vs = true <-> repetitive cellv same vs.
  Proof.
    unfold M_Infer.few_values. rewrite Z.ltb_lt. destruct (dedup_spec vs []) as (Ha & Hb & Hc). set (ds := dedup_by same [] vs) in *. split.
    - intros H. exists ds. repeat split; [intros u Hu; apply Ha; exact Hu | | exact Hc | exact H]. intros v Hv. destruct (Hb v Hv) as (d & [Hd|[]] & E). exists d. auto.
    - intros (us & U1 & U2 & U3 & H). assert (List.length ds <= List.length us)%nat; [|lia]. apply cover_le; [exact Hc|]. intros d Hd. apply U2, Ha, Hd.
  Qed.
  Lemma few_perm vs vs' : Permutation vs vs' -> few_values vs = few_values vs'.
  Proof.
    intros H. assert (forall a b, Permutation a b -> few_values a = true -> few_values b = true) as Hx.
    { intros a b Hp E. apply few_ok in E as (us & U1 & U2 & U3 & U4). apply few_ok. exists us. rewrite <- (Permutation_length Hp). repeat split; [intros u Hu; exact (Permutation_in _ Hp (U1 u Hu)) | intros v Hv; apply U2; exact (Permutation_in _ (Permutation_sym Hp) Hv) | exact U3 | exact U4]. }
    destruct (few_values vs) eqn:E; [symmetry; exact (Hx _ _ H E)|]. destruct (few_values vs') eqn:E'; [|reflexivity]. rewrite (Hx _ _ (Permutation_sym H) E') in E. discriminate E.
  Qed.
  Lemma drawn_all sample c : samples sample -> (List.length (o_vals _ c) <= 10000)%nat -> Permutation (drawn sample c) (o_vals _ c).
  Proof.
    intros Hs Hl. unfold M_Infer.drawn. rewrite Nat.min_r by exact Hl. destruct (Hs _ (o_vals _ c) (le_n _)) as (Hn & rest & Hp). assert (rest = []) as ->; [|rewrite app_nil_r in Hp; exact Hp].
    apply Permutation_length in Hp. rewrite app_length, Hn in Hp. destruct rest; [reflexivity | cbn in Hp; lia].
  Qed.
  Lemma texts_ok sample c : samples sample -> (List.length (o_vals _ c) <= 10000)%nat -> (has_str (drawn sample c) && long_texts (drawn sample c))%bool = long_texts (o_vals _ c).
  Proof.
    intros Hs Hl. pose proof (drawn_all sample c Hs Hl) as Hp. rewrite (long_perm _ _ Hp). destruct (has_str (drawn sample c)) eqn:E; [reflexivity|]. cbn [andb]. symmetry.
    rewrite <- (long_perm _ _ Hp). assert (forall v, In v (drawn sample c) -> len v = None) as Hv by (intros v Hv; exact (no_str _ v E Hv)). clear - Hv.
    unfold M_Infer.long_texts. assert (flat_map (fun v => match len v with Some n => [n] | None => [] end) (drawn sample c) = []) as ->; [|reflexivity].
    induction (drawn sample c) as [|v l IH]; [reflexivity|]. cbn [flat_map]. rewrite (Hv v (or_introl eq_refl)). apply IH. intros w Hw. apply Hv. right. exact Hw.
  Qed.

  (** a frame without rows, of a dtype that is not looked at then *)
  Definition leftover (c : icol) : Prop := o_vals _ c = [] /\ In (o_dtype _ c) [KString; KOther].

  (** columns with up to 10000 rows get the type they deserve *)
  Theorem C77_deserved_partial sample assumed links prev c : samples sample -> (List.length (o_vals _ c) <= 10000)%nat -> ~ (leftover c /\ ~ In (o_name _ c) assumed /\ ~ In (o_name _ c) links) ->
    deserves assumed links c (infer_one sample assumed links prev c).
  Proof.
    intros Hs Hl Hx. unfold M_Infer.infer_one. destruct (mem_str (o_name _ c) assumed) eqn:Ea.
    { apply mem_str_In in Ea. destruct (is_dt c) eqn:Ed; [apply d_time_date; [exact Ea | apply is_dt_dates; exact Ed] | apply d_time_number; [exact Ea | intros H; apply is_dt_dates in H; congruence]]. }
    assert (~ In (o_name _ c) assumed) as Na by (intros H; apply mem_str_In in H; congruence). destruct (mem_str (o_name _ c) links) eqn:El; [apply mem_str_In in El; apply d_link; assumption|].
    assert (~ In (o_name _ c) links) as Nl by (intros H; apply mem_str_In in H; congruence).
    assert (forall k, is_dt c = true -> o_dtype _ c = k -> In k [KObject; KDatetime; KString; KOther] -> (k = KObject -> o_vals _ c <> []) -> deserves assumed links c YDatetime) as Hd.
    { intros k H1 H2 H3 H4. apply d_date; [exact Na | exact Nl | rewrite H2; exact H3 | rewrite H2; exact H4 | apply is_dt_dates; exact H1]. }
    assert (is_dt c = false -> ~ dates c) as Hnd by (intros H H'; apply is_dt_dates in H'; congruence).
    assert (forall k, is_dt c = false -> o_dtype _ c = k -> In k [KString; KOther] -> deserves assumed links c (match o_vals _ c with [] => prev | _ => if few_values (drawn sample c) then YCategorical else YNumeric end)) as Hf.
    { intros k H1 H2 H3. destruct (o_vals _ c) as [|v vs] eqn:Ev; [exfalso; apply Hx; repeat split; [exact Ev | rewrite H2; exact H3 | exact Na | exact Nl]|].
      pose proof (drawn_all sample c Hs) as Hp. rewrite Ev in Hp. specialize (Hp Hl). rewrite (few_perm _ _ Hp).
      destruct (few_values (v :: vs)) eqn:E; [apply d_few | apply d_many]; try assumption; try (rewrite H2; exact H3); try (rewrite Ev; discriminate); try (exact (Hnd H1)); rewrite Ev; [apply few_ok; exact E | intros H; apply few_ok in H; congruence]. }
    destruct (o_dtype _ c) eqn:Ek.
    - destruct (o_vals _ c) as [|v vs] eqn:Ev; [apply d_object_empty; assumption|]. destruct (is_dt c) eqn:Ed; [apply (Hd KObject); [reflexivity | reflexivity | left; reflexivity | intros _; discriminate]|].
      pose proof (texts_ok sample c Hs) as Ht. rewrite Ev in Ht. rewrite (Ht Hl).
      destruct (long_texts (v :: vs)) eqn:E; [apply d_text | apply d_word]; try assumption; try (rewrite Ev; discriminate); try (exact (Hnd eq_refl)); rewrite Ev; [apply long_ok; exact E | intros H; apply long_ok in H; congruence].
    - apply d_bool; assumption.
    - apply d_category; assumption.
    - apply d_number; assumption.
    - destruct (is_dt c) eqn:Ed; [apply (Hd KDatetime); [reflexivity | reflexivity | cbn; auto | discriminate]|]. exfalso. unfold col_is_datetime in Ed. rewrite Ek in Ed. discriminate Ed.
    - destruct (is_dt c) eqn:Ed; [apply (Hd KString); [reflexivity | reflexivity | cbn; auto | discriminate] | apply (Hf KString); [reflexivity | reflexivity | cbn; auto]].
    - destruct (is_dt c) eqn:Ed; [apply (Hd KOther); [reflexivity | reflexivity | cbn; auto | discriminate] | apply (Hf KOther); [reflexivity | reflexivity | cbn; auto]].
  Qed.
  (** ... and a column deserves one type *)
  Theorem C77_deserved_once assumed links c t t' : deserves assumed links c t -> deserves assumed links c t' -> t = t'.
  Proof.
    intros H H'. inversion H; inversion H'; subst; try reflexivity; try contradiction; try congruence;
      repeat match goal with Hi : In _ (_ :: _) |- _ => cbn [In] in Hi end; try (exfalso; intuition congruence).
  Qed.

  (** the columns that are typed: those without a given type, in their order, each by itself *)
  Theorem C77_columns_partial sample cs links given ti sec : (forall c, In c cs -> ~ leftover c) ->
    forall n t, In (n, t) (infer sample cs links given ti sec) <-> ~ In n given /\ exists c, In c cs /\ o_name _ c = n /\
      t = infer_one sample (match ti with Some x => [x] | None => [] end ++ match sec with s :: _ => [s] | [] => [] end) links YUnknown c.
  Proof.
    intros Hc n t. unfold infer_variable_types. change (assumed_datetime ti sec) with (match ti with Some x => [x] | None => [] end ++ match sec with s :: _ => [s] | [] => [] end).
    set (assumed := _ ++ _).
    assert (forall prev, infer_from cellv same missing is_datetime numeric_text date_text len has_str sample assumed links given prev cs =
      map (fun c => (o_name _ c, infer_one sample assumed links YUnknown c)) (filter (fun c => negb (mem_str (o_name _ c) given)) cs)) as H.
    { induction cs as [|c cs IH]; intros prev; [reflexivity|]. cbn [infer_from filter]. destruct (mem_str (o_name _ c) given); cbn [negb map]; [apply IH; intros c' H'; apply Hc; right; exact H'|].
      rewrite IH by (intros c' H'; apply Hc; right; exact H'). f_equal. f_equal. specialize (Hc c (or_introl eq_refl)). unfold M_Infer.infer_one.
      destruct (mem_str (o_name _ c) assumed), (mem_str (o_name _ c) links); try reflexivity. destruct (o_dtype _ c) eqn:Ek; try reflexivity; destruct (is_dt c) eqn:Ed; try reflexivity; destruct (o_vals _ c) eqn:Ev; try reflexivity; exfalso.
      - unfold col_is_datetime in Ed. rewrite Ek in Ed. discriminate Ed.
      - apply Hc. split; [exact Ev | rewrite Ek; cbn; auto].
      - apply Hc. split; [exact Ev | rewrite Ek; cbn; auto]. }
    rewrite H, in_map_iff. split.
    - intros (c & E & Hi). injection E as <- <-. apply filter_In in Hi as [Hi Hg]. apply negb_true_iff in Hg. split; [intros Hn; apply mem_str_In in Hn; congruence | exists c; auto].
    - intros (Hg & c & Hi & <- & ->). exists c. split; [reflexivity|]. apply filter_In. split; [exact Hi|]. apply negb_true_iff. destruct (mem_str (o_name _ c) given) eqn:E; [apply mem_str_In in E; contradiction | reflexivity].
  Qed.
  (** neither the sample drawn nor the order of the rows matters for up to 10000 rows, if all or none of the values are datetimes *)
  Theorem C77_rows_partial sample sample' assumed links prev c c' : samples sample -> samples sample' -> o_name _ c = o_name _ c' -> o_dtype _ c = o_dtype _ c' -> Permutation (o_vals _ c) (o_vals _ c') ->
    (List.length (o_vals _ c) <= 10000)%nat -> (forall v w, In v (o_vals _ c) -> In w (o_vals _ c) -> is_datetime v = is_datetime w) ->
    infer_one sample assumed links prev c = infer_one sample' assumed links prev c'.
  Proof.
    intros Hs Hs' En Ed Hp Hl Hu. assert (is_dt c = is_dt c') as Edt.
    { unfold col_is_datetime. rewrite <- Ed. assert (match o_vals _ c with v :: _ => is_datetime v | [] => false end = match o_vals _ c' with v :: _ => is_datetime v | [] => false end) as ->.
      { destruct (o_vals _ c) as [|v vs]; [apply Permutation_nil in Hp as ->; reflexivity|]. destruct (o_vals _ c') as [|w ws]; [apply Permutation_sym, Permutation_nil in Hp; discriminate Hp|].
        apply Hu; [left; reflexivity | apply (Permutation_in _ (Permutation_sym Hp)); left; reflexivity]. }
      assert (Permutation (filter (fun v => negb (missing v)) (o_vals _ c)) (filter (fun v => negb (missing v)) (o_vals _ c'))) as Hk.
      { clear - Hp. induction Hp; cbn [filter]; [constructor | destruct (negb (missing x)); [constructor|]; assumption | destruct (negb (missing x)), (negb (missing y)); try apply perm_swap; apply Permutation_refl | etransitivity; eassumption]. }
      rewrite (forallb_perm numeric_text _ _ Hk), (forallb_perm date_text _ _ Hk). reflexivity. }
    assert (List.length (o_vals _ c') <= 10000)%nat as Hl' by (rewrite <- (Permutation_length Hp); exact Hl).
    assert (match o_vals _ c with [] => true | _ => false end = match o_vals _ c' with [] => true | _ => false end) as Enil.
    { apply Permutation_length in Hp. destruct (o_vals _ c), (o_vals _ c'); try reflexivity; discriminate Hp. }
    pose proof (drawn_all sample c Hs Hl) as P1. pose proof (drawn_all sample' c' Hs' Hl') as P2.
    assert (few_values (drawn sample c) = few_values (drawn sample' c')) as Efew by (apply few_perm; rewrite P1, P2; exact Hp).
    assert ((has_str (drawn sample c) && long_texts (drawn sample c))%bool = (has_str (drawn sample' c') && long_texts (drawn sample' c'))%bool) as Etxt by (rewrite (texts_ok sample c Hs Hl), (texts_ok sample' c' Hs' Hl'); apply long_perm; exact Hp).
    unfold M_Infer.infer_one. rewrite <- En, <- Ed, <- Edt, <- Etxt, <- Efew. destruct (o_vals _ c), (o_vals _ c'); try discriminate Enil; reflexivity.
  Qed.
End Infer.

(** ** Columns of words, of dates, and of datetime objects; a word is its length and a number that tells words apart *)
Inductive tcell : Type := TNone | TDate (d : Z) | TWord (n k : Z) | TDateWord (d : Z).
Definition t_same (a b : tcell) : bool :=
  match a, b with TNone, TNone => true | TDate x, TDate y => Z.eqb x y | TWord n k, TWord m j => Z.eqb n m && Z.eqb k j | TDateWord x, TDateWord y => Z.eqb x y | _, _ => false end.
Definition t_missing (a : tcell) : bool := match a with TNone => true | _ => false end.
Definition t_datetime (a : tcell) : bool := match a with TDate _ => true | _ => false end.
Definition t_date_text (a : tcell) : bool := match a with TDate _ | TDateWord _ => true | _ => false end.
Definition t_len (a : tcell) : option Z := match a with TWord n _ => Some n | TDateWord _ => Some 10 | _ => None end.
Definition t_first (n : nat) (l : list tcell) : list tcell := firstn n l.
Definition t_last (n : nat) (l : list tcell) : list tcell := skipn (List.length l - n) l.
Notation t_one sample := (infer_one tcell t_same t_missing t_datetime (fun _ => false) t_date_text t_len (fun _ => true) sample).
Notation t_infer sample := (infer_variable_types tcell t_same t_missing t_datetime (fun _ => false) t_date_text t_len (fun _ => true) sample).
Lemma first_samples : samples tcell t_first.
Proof. intros n l H. split; [apply firstn_length_le; exact H|]. exists (skipn n l). unfold t_first. rewrite firstn_skipn. apply Permutation_refl. Qed.
Lemma last_samples : samples tcell t_last.
Proof. intros n l H. split; [unfold t_last; rewrite skipn_length; lia|]. exists (firstn (List.length l - n) l). unfold t_last. rewrite Permutation_app_comm, firstn_skipn. apply Permutation_refl. Qed.
Lemma t_same_eq a b : t_same a b = true <-> a = b.
Proof.
  destruct a, b; cbn; split; intros H; try discriminate H; try reflexivity; try (apply Z.eqb_eq in H; congruence); try (injection H; intros; subst; rewrite ?Z.eqb_refl; reflexivity).
  apply andb_true_iff in H as [H1 H2]. apply Z.eqb_eq in H1, H2. congruence.
Qed.
Definition word_col : icol tcell := mkIcol _ "w" KObject [TWord 3 1; TNone; TWord 4 2].
Definition review_col : icol tcell := mkIcol _ "r" KObject [TWord 90 1; TNone; TWord 40 2].
Definition day_col : icol tcell := mkIcol _ "d" KObject [TDateWord 1; TNone].
Example C77_nonvacuous : samples tcell t_first /\ (forall a, t_same a a = true) /\ (forall a b, t_same a b = true -> t_same b a = true) /\ (forall a b c, t_same a b = true -> t_same b c = true -> t_same a c = true) /\
  t_infer t_first [word_col; review_col; day_col; mkIcol _ "n" KNumber []; mkIcol _ "x" KObject [TWord 1 1]] [] ["x"%string] None [] = [("w", YCategorical); ("r", YNaturalLanguage); ("d", YDatetime); ("n", YNumeric)]%string /\
  t_infer t_last [word_col; review_col; day_col] ["w"%string; "d"%string] [] (Some "d"%string) ["r"%string; "w"%string] = [("w", YCategorical); ("r", YNumeric); ("d", YDatetime)]%string.
Proof.
  split; [exact first_samples|]. split; [intros a; apply t_same_eq; reflexivity|]. split; [intros a b H; apply t_same_eq in H; apply t_same_eq; congruence|].
  split; [intros a b c H H'; apply t_same_eq in H, H'; apply t_same_eq; congruence|]. split; reflexivity.
Qed.
(** an empty column of an unusual dtype gets the type of the column before it *)
Theorem C77_leftover_refuted : let e := mkIcol tcell "e" KOther [] in
  t_infer t_first [mkIcol _ "a" KBool []; e] [] [] None [] = [("a", YBoolean); ("e", YBoolean)]%string /\ t_infer t_first [mkIcol _ "a" KNumber []; e] [] [] None [] = [("a", YNumeric); ("e", YNumeric)]%string /\
  t_infer t_first [e; mkIcol _ "a" KBool []] [] [] None [] = [("e", YUnknown); ("a", YBoolean)]%string.
Proof. repeat split; reflexivity. Qed.
(** the order of the rows matters when some values are datetimes and others are not *)
Theorem C77_rows_refuted : t_one t_first [] [] YUnknown (mkIcol _ "d" KObject [TDate 1; TWord 3 1]) = YDatetime /\ t_one t_first [] [] YUnknown (mkIcol _ "d" KObject [TWord 3 1; TDate 1]) = YCategorical.
Proof. split; reflexivity. Qed.
(** with more than 10000 rows the sample decides: two runs on the same data can give different types *)
Theorem C77_sample_refuted : let c := mkIcol tcell "t" KObject (repeat (TWord 50 1) 10000 ++ [TWord 51 2]) in
  samples tcell t_first /\ samples tcell t_last /\ t_one t_first [] [] YUnknown c = YCategorical /\ t_one t_last [] [] YUnknown c = YNaturalLanguage.
Proof. split; [exact first_samples|]. split; [exact last_samples|]. split; vm_compute; reflexivity. Qed.
(** words in a column of dtype string are called numbers unless they repeat *)
Theorem C77_string_refuted : t_one t_first [] [] YUnknown (mkIcol _ "s" KString [TWord 3 1; TWord 4 2]) = YNumeric /\ t_one t_first [] [] YUnknown (mkIcol _ "s" KObject [TWord 3 1; TWord 4 2]) = YCategorical.
Proof. split; reflexivity. Qed.

Print Assumptions C77_deserved_partial.
Print Assumptions C77_deserved_once.
Print Assumptions C77_columns_partial.
Print Assumptions C77_rows_partial.
Print Assumptions C77_leftover_refuted.
Print Assumptions C77_rows_refuted.
Print Assumptions C77_sample_refuted.
Print Assumptions C77_string_refuted.
