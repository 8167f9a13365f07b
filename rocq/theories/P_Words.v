(** C70: the English description of a feature. *)
From Coq Require Import DecimalNat.
From Verif Require Import Base BaseFacts M_Schema M_Feature M_Words S_Schema S_Calc S_DFS S_Words L_FeatureSet.
Local Open Scope string_scope.
Local Open Scope list_scope.

(** ** Strings *)
Lemma app_assoc_s a b c : ((a ++ b) ++ c = a ++ b ++ c)%string.
Proof. induction a; cbn; congruence. Qed.
Lemma app_nil_s a : (a ++ "")%string = a.
Proof. induction a; cbn; congruence. Qed.
Lemma contains_refl s : contains s s.
Proof. exists "", "". rewrite app_nil_s. reflexivity. Qed.
Lemma contains_l a b s : contains s a -> contains s (a ++ b)%string.
Proof. intros (x & y & ->). exists x, (y ++ b)%string. rewrite !app_assoc_s. reflexivity. Qed.
Lemma contains_r a b s : contains s b -> contains s (a ++ b)%string.
Proof. intros (x & y & ->). exists (a ++ x)%string, y. rewrite !app_assoc_s. reflexivity. Qed.
Lemma contains_trans a b c : contains a b -> contains b c -> contains a c.
Proof. intros (x & y & ->) (u & v & ->). exists (u ++ x)%string, (y ++ v)%string. rewrite !app_assoc_s. reflexivity. Qed.
Lemma says_in d s s' : says d s -> contains s s' -> says d s'.
Proof. intros [H|(d' & E & H)] Hc; [left | right; exists d'; split; [exact E|]]; eapply contains_trans; eassumption. Qed.
Lemma join_contains sep l s : In s l -> contains s (join sep l).
Proof.
  induction l as [|x l IH]; intros H; [destruct H|]. destruct H as [->|H]; destruct l as [|y l]; cbn [join]; try (destruct H); try apply contains_refl; [apply contains_l, contains_refl| |].
  - subst. apply contains_r, contains_r, IH. left; reflexivity.
  - apply contains_r, contains_r, IH. right; exact H.
Qed.
Lemma substring_all s n : String.length s <= n -> String.substring 0 n s = s.
Proof. revert n. induction s as [|c s IH]; intros [|n] H; cbn in *; try reflexivity; [lia|]. f_equal. apply IH. lia. Qed.
Lemma prefix_app p s : String.prefix p s = true -> exists b, s = (p ++ b)%string.
Proof.
  revert s. induction p as [|c p IH]; intros s H; [exists s; reflexivity|]. destruct s as [|c' s]; [discriminate|]. cbn [String.prefix] in H. destruct (Ascii.ascii_dec c c') as [<-|]; [|discriminate]. destruct (IH s H) as (b & ->). exists b. reflexivity.
Qed.
Lemma drop_the_says d : says d (drop_the d) .
Proof.
  unfold drop_the. destruct (String.prefix "the " d) eqn:E; [|left; apply contains_refl]. right.
  apply prefix_app in E as (b & ->). exists b. split; [reflexivity|]. cbn [append String.substring String.length Nat.sub]. rewrite substring_all by lia. apply contains_refl.
Qed.

Lemma ok_inj {A} (a b : A) : Ok a = Ok b -> a = b.
Proof. congruence. Qed.

(** ** Templates *)
Lemma format_shows args nth : forall t i m s, format_from i m args nth t = Ok s ->
  (forall j a, i <= j -> j < i + autos t -> nth_error args j = Some a -> contains (shown a) s) /\
  (forall j a, In (Arg j) t -> nth_error args j = Some a -> contains (shown a) s).
Proof.
  assert (forall a b : string, contains b (a ++ b)%string) as Hr by (intros; apply contains_r, contains_refl).
  induction t as [|p t IH]; intros i m s H; cbn [format_from] in H.
  - inversion H; subst. cbn [autos]. split; intros; [lia | destruct H0].
  - destruct p as [l| |j|]; cbn [autos].
    + destruct (format_from i m args nth t) as [r|] eqn:E; [|discriminate]. cbn [bind] in H. inversion H; subst. destruct (IH _ _ _ E) as [H1 H2]. split; intros; [|destruct H0 as [H0|H0]; [discriminate|]]; (eapply contains_trans; [|apply Hr]); eauto.
    + destruct m; [discriminate|]. unfold get_arg in H. destruct (nth_error args i) as [a|] eqn:Ea; [|discriminate]. cbn [bind] in H. destruct (format_from (S i) false args nth t) as [r|] eqn:E; [|discriminate]. cbn [bind] in H. inversion H; subst. destruct (IH _ _ _ E) as [H1 H2]. split.
      * intros j b Hj Hk Hb. destruct (Nat.eq_dec j i) as [->|]; [rewrite Ea in Hb; inversion Hb; subst; apply contains_l, contains_refl|]. eapply contains_trans; [|apply Hr]. apply (H1 j); [lia|lia|exact Hb].
      * intros j b [Hj|Hj] Hb; [discriminate|]. eapply contains_trans; [|apply Hr]. eapply H2; eassumption.
    + destruct (0 <? i)%nat; [discriminate|]. unfold get_arg in H. destruct (nth_error args j) as [a|] eqn:Ea; [|discriminate]. cbn [bind] in H. destruct (format_from i true args nth t) as [r|] eqn:E; [|discriminate]. cbn [bind] in H. inversion H; subst. destruct (IH _ _ _ E) as [H1 H2]. split.
      * intros j' b Hj Hk Hb. eapply contains_trans; [|apply Hr]. eapply H1; eassumption.
      * intros j' b [Hj|Hj] Hb; [inversion Hj; subst; rewrite Ea in Hb; inversion Hb; subst; apply contains_l, contains_refl|]. eapply contains_trans; [|apply Hr]. eapply H2; eassumption.
    + destruct nth as [n|]; [|discriminate]. destruct (format_from i m args (Some n) t) as [r|] eqn:E; [|discriminate]. cbn [bind] in H. inversion H; subst. destruct (IH _ _ _ E) as [H1 H2]. split; intros; [|destruct H0 as [H0|H0]; [discriminate|]]; (eapply contains_trans; [|apply Hr]); eauto.
Qed.
Lemma format_ok args nth : forall t i m, (In Nth t -> nth <> None) ->
  ((i + autos t <= List.length args /\ (forall j, ~ In (Arg j) t) /\ m = false) \/ (autos t = 0 /\ (forall j, In (Arg j) t -> j < List.length args) /\ i = 0)) ->
  exists s, format_from i m args nth t = Ok s.
Proof.
  assert (forall j, j < List.length args -> exists a, nth_error args j = Some a) as Hg. { intros j Hj. destruct (nth_error args j) eqn:E; [eauto|]. apply nth_error_None in E. lia. }
  induction t as [|p t IH]; intros i m Hn H; cbn [format_from]; [eauto|]. destruct p as [l| |j|]; cbn [autos] in H.
  - destruct (IH i m) as (s & ->); [intros; apply Hn; right; assumption| |cbn [bind]; eauto]. destruct H as [(A & B & C)|(A & B & C)]; [left | right]; repeat split; auto; intros j Hj; [apply (B j) | apply B]; right; exact Hj.
  - destruct H as [(A & B & ->)|(A & _)]; [|discriminate]. destruct (Hg i ltac:(lia)) as (a & Ea). unfold get_arg. rewrite Ea. cbn [bind]. destruct (IH (S i) false) as (s & ->); [intros; apply Hn; right; assumption| |cbn [bind]; eauto]. left. split; [lia|]. split; [|reflexivity]. intros j Hj. apply (B j). right; exact Hj.
  - destruct H as [(A & B & C)|(A & B & ->)]; [exfalso; apply (B j); left; reflexivity|]. cbn [Nat.ltb Nat.leb]. destruct (Hg j (B j (or_introl eq_refl))) as (a & Ea). unfold get_arg. rewrite Ea. cbn [bind]. destruct (IH 0 true) as (s & ->); [intros; apply Hn; right; assumption| |cbn [bind]; eauto]. right. repeat split; auto. intros k Hk. apply B. right; exact Hk.
  - destruct nth as [n|]; [|exfalso; apply Hn; [left; reflexivity | reflexivity]]. destruct (IH i m) as (s & ->); [intros; apply Hn; right; assumption| |cbn [bind]; eauto]. destruct H as [(A & B & C)|(A & B & C)]; [left | right]; repeat split; auto; intros j Hj; [apply (B j) | apply B]; right; exact Hj.
Qed.
Definition chosen (own override : option templates) : option templates := if falsy override then own else override.
(** what a primitive says contains the descriptions of its inputs *)
Lemma get_description_shows own ov name inputs slice s : get_description own ov name inputs slice = Ok s ->
  (forall t, in_use (chosen own ov) slice t -> shows_all t (List.length inputs)) -> forall d, In d inputs -> contains (shown d) s.
Proof.
  unfold get_description, chosen. set (t := if falsy ov then own else ov). intros H Hs d Hd.
  assert (forall t' nth, format inputs nth t' = Ok s -> in_use t slice t' -> contains (shown d) s) as Hf.
  { intros t' nth Hf Hu. apply In_nth_error in Hd as (i & Hi). destruct (format_shows _ _ _ _ _ _ Hf) as [H1 H2]. assert (i < List.length inputs) as Hl by (apply nth_error_Some; congruence). destruct (Hs t' Hu i Hl) as [Ha|Ha]; [apply (H1 i); [lia | exact Ha | exact Hi] | apply (H2 i); assumption]. }
  destruct (falsy t) eqn:Et.
  - destruct (all_strings inputs) as [l|] eqn:El; [|discriminate]. cbn [bind] in H. assert (In (shown d) l) as Hl.
    { clear - El Hd. revert l El. induction inputs as [|x inputs IH]; intros l El; [destruct Hd|]. unfold all_strings in El. cbn [mapM] in El. destruct x as [x|]; [|discriminate]. cbn [bind] in El. destruct (mapM _ inputs) as [l'|] eqn:E'; [|discriminate]. cbn [bind] in El. inversion El; subst. destruct Hd as [<-|Hd]; [left; reflexivity | right; apply IH; [exact Hd | exact E']]. }
    apply (join_contains ", ") in Hl. destruct slice; apply ok_inj in H; subst s; repeat apply contains_r; exact Hl.
  - destruct t as [[t'|ts]|]; [eapply Hf; [exact H | reflexivity] | | discriminate]. destruct slice as [n|].
    + destruct (nth_error ts (S n)) as [t'|] eqn:En; [eapply Hf; [exact H | left; exact En]|]. destruct (2 <? List.length ts)%nat eqn:E2; [discriminate|]. apply Nat.ltb_ge in E2. apply nth_error_None in En. destruct (nth_error ts 1) as [t'|] eqn:E1; [|discriminate]. eapply Hf; [exact H|]. right. auto.
    + destruct ts as [|t' ts]; [discriminate|]. eapply Hf; [exact H | reflexivity].
Qed.
Lemma get_description_ok own ov name inputs slice : well_formed (chosen own ov) slice (List.length inputs) -> (forall d, In d inputs -> d <> None) ->
  exists s, get_description own ov name inputs slice = Ok s.
Proof.
  unfold get_description, chosen, well_formed. set (t := if falsy ov then own else ov). intros H Hd.
  assert (forall nth t' b, takes t' (List.length inputs) b -> (b = true -> nth <> None) -> exists s, format inputs nth t' = Ok s) as Hf.
  { intros nth t' b [Ht Hn] Hb. apply format_ok; [intros Hin; apply Hb, Hn, Hin|]. destruct Ht as [(A & B)|(A & B)]; [left | right]; auto. }
  destruct (falsy t) eqn:Et.
  - assert (exists l, all_strings inputs = Ok l) as (l & ->). { clear - Hd. induction inputs as [|[x|] inputs IH]; [eexists; reflexivity| |exfalso; apply (Hd None); [left|]; reflexivity]. destruct IH as (l & El); [intros d Hi; apply Hd; right; exact Hi|]. unfold all_strings in *. cbn [mapM bind]. rewrite El. cbn [bind]. eauto. } cbn [bind]. eauto.
  - destruct H as [H|(t' & Hu & Ht)]; [discriminate|]. destruct t as [[u|ts]|]; [|destruct slice as [n|]|destruct Hu].
    + cbn [in_use] in Hu. subst u. eapply Hf; [exact Ht | intros E; destruct slice; discriminate].
    + cbn [in_use] in Hu. destruct Hu as [->|(A & B & C)]; [eapply Hf; [exact Ht | discriminate]|]. apply nth_error_None in B. rewrite B, C. replace (2 <? List.length ts)%nat with false by (symmetry; apply Nat.ltb_ge; exact A). eapply Hf; [exact Ht | discriminate].
    + cbn [in_use] in Hu. destruct ts as [|u ts]; [discriminate|]. cbn [nth_error] in Hu. inversion Hu; subst. eapply Hf; [exact Ht | discriminate].
Qed.

(** ** Ordinals *)
Definition digit (r : nat) : ascii := ascii_of_nat (48 + r).
Fixpoint snoc (u : Decimal.uint) (r : nat) : Decimal.uint :=
  match u with
  | Decimal.Nil => Nat.to_uint r
  | Decimal.D0 u => Decimal.D0 (snoc u r) | Decimal.D1 u => Decimal.D1 (snoc u r) | Decimal.D2 u => Decimal.D2 (snoc u r) | Decimal.D3 u => Decimal.D3 (snoc u r)
  | Decimal.D4 u => Decimal.D4 (snoc u r) | Decimal.D5 u => Decimal.D5 (snoc u r) | Decimal.D6 u => Decimal.D6 (snoc u r) | Decimal.D7 u => Decimal.D7 (snoc u r)
  | Decimal.D8 u => Decimal.D8 (snoc u r) | Decimal.D9 u => Decimal.D9 (snoc u r)
  end.
Lemma digits_of r : r < 10 -> r = 0 \/ r = 1 \/ r = 2 \/ r = 3 \/ r = 4 \/ r = 5 \/ r = 6 \/ r = 7 \/ r = 8 \/ r = 9.
Proof. lia. Qed.
Ltac digits H := apply digits_of in H; repeat (destruct H as [->|H]; [|try subst]); try subst.
Lemma snoc_string u r : r < 10 -> DecimalString.NilEmpty.string_of_uint (snoc u r) = (DecimalString.NilEmpty.string_of_uint u ++ String (digit r) "")%string.
Proof. intros Hr. induction u; cbn [snoc DecimalString.NilEmpty.string_of_uint append]; try (rewrite IHu; reflexivity). digits Hr; reflexivity. Qed.
Lemma snoc_acc u r : r < 10 -> forall acc, Nat.of_uint_acc (snoc u r) acc = Nat.of_uint_acc u acc * 10 + r.
Proof.
  intros Hr. assert (forall a, Nat.tail_mul 10 a = 10 * a) as Ht by (intros a; apply Nat.tail_mul_spec).
  induction u; intros acc; cbn [snoc Nat.of_uint_acc]; try (rewrite IHu; reflexivity). digits Hr; cbn [Nat.to_uint Nat.to_little_uint Nat.of_uint_acc Decimal.rev Decimal.revapp Decimal.Little.succ]; rewrite Ht; lia.
Qed.
Lemma snoc_unorm u r : Decimal.unorm u = u -> u <> Decimal.zero -> u <> Decimal.Nil -> Decimal.unorm (snoc u r) = snoc u r.
Proof.
  intros H Hz Hn. destruct u; try reflexivity; [congruence|]. exfalso. cbn [Decimal.unorm] in H. clear Hn. assert (forall v, Decimal.unorm v = Decimal.D0 u -> u = Decimal.Nil) as Hv. { induction v; cbn [Decimal.unorm]; intros E; try discriminate; [inversion E; reflexivity | apply IHv; exact E]. } apply Hv in H. subst u. apply Hz. reflexivity.
Qed.
Lemma string_of_nat_snoc q r : r < 10 -> 0 < q -> string_of_nat (q * 10 + r) = (string_of_nat q ++ String (digit r) "")%string.
Proof.
  intros Hr Hq. unfold string_of_nat. rewrite <- snoc_string by exact Hr. f_equal.
  assert (Nat.of_uint (snoc (Nat.to_uint q) r) = q * 10 + r) as E. { unfold Nat.of_uint. rewrite snoc_acc by exact Hr. change (Nat.of_uint_acc (Nat.to_uint q) 0) with (Nat.of_uint (Nat.to_uint q)). rewrite DecimalNat.Unsigned.of_to. reflexivity. }
  rewrite <- E, DecimalNat.Unsigned.to_of. apply snoc_unorm.
  - rewrite <- DecimalNat.Unsigned.to_of, DecimalNat.Unsigned.of_to. reflexivity.
  - intros H. apply (f_equal Nat.of_uint) in H. rewrite DecimalNat.Unsigned.of_to in H. cbn in H. lia.
  - intros H. apply (f_equal Nat.of_uint) in H. rewrite DecimalNat.Unsigned.of_to in H. cbn in H. lia.
Qed.
Lemma app_last_inj a b x y : (a ++ String x "" = b ++ String y "")%string -> a = b /\ x = y.
Proof.
  revert b. induction a as [|c a IH]; intros [|c' b]; cbn [append]; intros H; inversion H; subst; [split; reflexivity | destruct b; discriminate | destruct a; discriminate|]. apply IH in H2 as [-> ->]. split; reflexivity.
Qed.
(** the last digit of the decimal number *)
Lemma last_digit n : exists a, string_of_nat n = (a ++ String (digit (n mod 10)) "")%string /\ (n < 10 -> a = "") /\ (10 <= n -> a = string_of_nat (n / 10)).
Proof.
  pose proof (Nat.mod_upper_bound n 10 ltac:(lia)) as Hr. pose proof (Nat.div_mod n 10 ltac:(lia)) as Hd. destruct (Nat.lt_ge_cases n 10) as [Hn|Hn].
  - exists "". split; [|split; [reflexivity | lia]]. rewrite (Nat.mod_small n 10) by exact Hn. clear - Hn. digits Hn; reflexivity.
  - exists (string_of_nat (n / 10)). split; [|split; [lia | reflexivity]]. rewrite Hd at 1. rewrite (Nat.mul_comm 10). apply string_of_nat_snoc; [exact Hr|]. apply Nat.div_str_pos. lia.
Qed.
Lemma digit_inj r r' : r < 10 -> r' < 10 -> digit r = digit r' -> r = r'.
Proof. intros H H' E. digits H; digits H'; try reflexivity; discriminate. Qed.
Lemma ends_one n r : r < 10 -> ends_with (String (digit r) "") (string_of_nat n) <-> n mod 10 = r.
Proof.
  intros Hr. destruct (last_digit n) as (a & E & _). rewrite E. split; [|intros <-; exists a; reflexivity]. intros (b & Eb). apply app_last_inj in Eb as [_ Eb]. apply digit_inj in Eb; [exact Eb | apply Nat.mod_upper_bound; lia | exact Hr].
Qed.
Lemma ends_two n r : r < 10 -> ends_with (String "1" (String (digit r) "")) (string_of_nat n) <-> n mod 100 = 10 + r.
Proof.
  intros Hr. destruct (last_digit n) as (a & E & Ha & Hb). pose proof (Nat.mod_upper_bound n 10 ltac:(lia)) as Hm.
  assert (n mod 100 = n mod 10 + 10 * ((n / 10) mod 10)) as Hc by (change 100 with (10 * 10); apply Nat.mod_mul_r; lia).
  pose proof (Nat.mod_upper_bound (n / 10) 10 ltac:(lia)) as Hm'.
  assert (forall b : string, (b ++ String "1" (String (digit r) ""))%string = ((b ++ String "1" "") ++ String (digit r) "")%string) as Has by (intros b; rewrite app_assoc_s; reflexivity).
  split.
  - intros (b & Eb). rewrite E, Has in Eb. apply app_last_inj in Eb as [Ea Er]. apply digit_inj in Er; [|exact Hm|exact Hr]. destruct (Nat.lt_ge_cases n 10) as [Hn|Hn]; [rewrite (Ha Hn) in Ea; destruct b; discriminate|]. rewrite (Hb Hn) in Ea. assert ((n / 10) mod 10 = 1) by (apply (ends_one (n / 10) 1); [lia | exists b; exact Ea]). lia.
  - intros H. assert ((n / 10) mod 10 = 1 /\ n mod 10 = r) as [H1 H2] by lia. destruct (Nat.lt_ge_cases n 10) as [Hn|Hn]; [rewrite (Nat.div_small n 10 Hn) in H1; discriminate|]. apply (ends_one (n / 10) 1) in H1 as (b & E1); [|lia]. exists b. rewrite E, (Hb Hn), E1, Has, H2. reflexivity.
Qed.
(** 1st, 2nd, 3rd, 4th, ..., 11th, 12th, 13th, ..., 21st, ...: read off the decimal digits *)
Theorem C70_ordinals n : let s := string_of_nat n in exists suffix, convert_to_nth n = (s ++ suffix)%string /\
  (suffix = "st" <-> ends_with "1" s /\ ~ ends_with "11" s) /\
  (suffix = "nd" <-> ends_with "2" s /\ ~ ends_with "12" s) /\
  (suffix = "rd" <-> ends_with "3" s /\ ~ ends_with "13" s) /\
  (suffix = "st" \/ suffix = "nd" \/ suffix = "rd" \/ suffix = "th").
Proof.
  cbn zeta. eexists. split; [reflexivity|]. change "1" with (String (digit 1) "") at 1. change "2" with (String (digit 2) ""). change "3" with (String (digit 3) "").
  change "11" with (String "1" (String (digit 1) "")). change "12" with (String "1" (String (digit 2) "")). change "13" with (String "1" (String (digit 3) "")).
  rewrite !ends_one, !ends_two by lia. cbn [Nat.add].
  destruct (n mod 10 =? 1)%nat eqn:E1; destruct (n mod 100 =? 11)%nat eqn:E2; destruct (n mod 10 =? 2)%nat eqn:E3; destruct (n mod 100 =? 12)%nat eqn:E4; destruct (n mod 10 =? 3)%nat eqn:E5; destruct (n mod 100 =? 13)%nat eqn:E6; cbn [andb negb];
    rewrite ?Nat.eqb_eq, ?Nat.eqb_neq in *; repeat split; try discriminate; try tauto; try (intros [? ?]; lia); intuition (try discriminate; try lia; auto).
Qed.

(** ** The recursion *)
Section Words.
  Variable rels : list relationship.
  Variable vdesc : string -> string -> string.
  Variable index : string -> string.
  Variable pname : prim -> option string.
  Variable ptempl : prim -> option templates.
  Variable pvalue : prim -> option string.
  Variable pid : prim -> nat.
  Variables upper lower : string -> string.
  Variable overrides : list (pkey * templates).
  Notation generate descs := (generate rels vdesc index pname ptempl pvalue pid upper lower descs overrides).
  Notation describe descs := (describe_feature rels vdesc index pname ptempl pvalue pid upper lower descs overrides).
  Notation prim_desc := (primitive_description pname ptempl pid upper overrides).
  Notation agg_group descs := (get_aggregation_groupby rels index descs).
  Notation custom descs := (custom rels descs).

  Definition strip (f : feat) : feat := match f with FSlice b _ _ => b | _ => f end.
  Definition where_words (g : feat -> res (option string)) (f : feat) : res string :=
    match fwhere f with
    | None => Ok ""%string
    | Some w =>
      match fbases w with
      | [] => Err IndexError
      | b :: _ => do d <- g b; match fprim w with Some p => match pvalue p with Some v => Ok ("where " ++ shown d ++ " is " ++ v)%string | None => Err AttributeError end | None => Err AttributeError end
      end
    end.
  Definition split_group (f : feat) (inputs : list (option string)) : list (option string) * option string :=
    match f with FGroup _ _ _ _ => (removelast inputs, List.last inputs None) | _ => (inputs, None) end.
  Definition phrases (prim ent wh grp : string) : string := join " " (filter (fun s => negb (is_empty s)) [prim; ent; wh; grp]).
  Definition body descs (g : feat -> res (option string)) (f : feat) : res (option string) :=
    match f with
    | FIdent e v _ => Ok (Some (vdesc e v))
    | FDirect r b _ => do d <- g (fst (get_direct_description r b)); match d with Some d => Ok (Some (d ++ snd (get_direct_description r b))%string) | None => Err TypeError end
    | _ =>
      do inputs <- mapM g (fbases (strip f));
      do prim <- prim_desc f (fst (split_group f inputs));
      do wh <- where_words g (strip f);
      Ok (Some (phrases prim (entity_phrase lower (strip f)) wh (groupby_phrase (match strip f with FAgg _ _ _ _ _ _ _ => agg_group descs (fentity (strip f)) | _ => snd (split_group f inputs) end))))
    end.
  Lemma generate_S descs n f : generate descs (S n) f = match custom descs f with Some d => Ok d | None => body descs (generate descs n) f end.
  Proof.
    cbn [M_Words.generate]. destruct (custom descs f); [reflexivity|]. destruct f as [e v nm|r b nm|p bs path u w prev nm|p bs nm|p bs g nm|b i nm]; try reflexivity. cbn [body]. destruct (get_direct_description r b). reflexivity.
  Qed.
  (** the features whose descriptions are asked for *)
  Definition asked (f : feat) : list feat :=
    match f with
    | FIdent _ _ _ => []
    | FDirect r b _ => [origin b]
    | _ => fbases (strip f) ++ match fwhere (strip f) with Some w => firstn 1 (fbases w) | None => [] end
    end.
  Lemma chain_origin b : forall acc, fst (direct_chain b acc) = origin b.
  Proof. induction b; intros acc; cbn [direct_chain origin fst]; auto. Qed.
  Lemma origin_size b : fsize (origin b) <= fsize b.
  Proof. induction b; cbn [origin fsize] in *; lia. Qed.
  Lemma asked_size f g : In g (asked f) -> fsize g < fsize f.
  Proof.
    assert (forall b, In g (fbases (strip b)) -> fsize g < fsize b) as Hb. { intros b H. assert (fsize (strip b) <= fsize b) by (destruct b; cbn [strip fsize]; lia). enough (fsize g < fsize (strip b)) by lia. apply fsize_dep. unfold fdeps. apply in_app_iff. left. exact H. }
    assert (forall b w, fwhere (strip b) = Some w -> In g (firstn 1 (fbases w)) -> fsize g < fsize b) as Hw.
    { intros b w Hw H. assert (fsize (strip b) <= fsize b) by (destruct b; cbn [strip fsize]; lia). assert (fsize w < fsize (strip b)). { apply fsize_dep. unfold fdeps. rewrite Hw. apply in_app_iff. right; left; reflexivity. } assert (fsize g < fsize w); [|lia]. apply fsize_dep. unfold fdeps. apply in_app_iff. left. destruct (fbases w); [destruct H|]. destruct H as [->|[]]. left; reflexivity. }
    intros H. destruct f; cbn [asked] in H; try (apply in_app_iff in H as [H|H]; [apply Hb; exact H | revert H; destruct (fwhere _) eqn:E; [apply Hw; exact E | intros []]]); [destruct H|]. destruct H as [<-|[]]. pose proof (origin_size f). cbn [fsize]. lia.
  Qed.
  Lemma mapM_ext_In {A B} (f g : A -> res B) l : (forall a, In a l -> f a = g a) -> mapM f l = mapM g l.
  Proof. induction l as [|a l IH]; intros H; cbn [mapM]; [reflexivity|]. rewrite (H a (or_introl eq_refl)). destruct (g a); cbn [bind]; [|reflexivity]. rewrite IH; [reflexivity|]. intros b Hb. apply H. right; exact Hb. Qed.
  Lemma where_ext h1 h2 f : (forall g, In g (match fwhere f with Some w => firstn 1 (fbases w) | None => [] end) -> h1 g = h2 g) -> where_words h1 f = where_words h2 f.
  Proof. intros H. unfold where_words. destruct (fwhere f) as [w|]; [|reflexivity]. destruct (fbases w) as [|b l]; [reflexivity|]. rewrite (H b); [reflexivity | left; reflexivity]. Qed.
  Lemma body_ext descs h1 h2 f : (forall g, In g (asked f) -> h1 g = h2 g) -> body descs h1 f = body descs h2 f.
  Proof.
    intros H. destruct f; cbn [body]; cbn [asked] in H; try reflexivity;
      try (rewrite (mapM_ext_In h1 h2) by (intros x Hx; apply H, in_app_iff; left; exact Hx); rewrite (where_ext h1 h2) by (intros x Hx; apply H, in_app_iff; right; exact Hx); reflexivity).
    unfold get_direct_description. rewrite chain_origin. rewrite (H (origin f)) by (left; reflexivity). reflexivity.
  Qed.
  Lemma generate_enough descs : forall n m f, fsize f <= n -> fsize f <= m -> generate descs n f = generate descs m f.
  Proof.
    induction n as [|n IH]; intros m f Hn Hm; [destruct f; cbn in Hn; lia|]. destruct m as [|m]; [destruct f; cbn in Hm; lia|]. rewrite !generate_S. destruct (custom descs f); [reflexivity|]. apply body_ext. intros g Hg. apply asked_size in Hg. apply IH; lia.
  Qed.
  Definition words descs (f : feat) : res (option string) := generate descs (fsize f) f.
  Lemma words_eq descs f : words descs f = match custom descs f with Some d => Ok d | None => body descs (words descs) f end.
  Proof.
    unfold words at 1. destruct (fsize f) as [|n] eqn:E; [destruct f; discriminate|]. rewrite generate_S. destruct (custom descs f); [reflexivity|]. apply body_ext. intros g Hg. apply asked_size in Hg. apply generate_enough; lia.
  Qed.
  Lemma generate_words descs n f : fsize f <= n -> generate descs n f = words descs f.
  Proof. intros H. apply generate_enough; [exact H | reflexivity]. Qed.

  (** ** What the description speaks of *)
  (** the template in use for [f] shows all its inputs *)
  Definition shows (f : feat) : Prop :=
    match fprim f with
    | Some p => forall t, in_use (chosen (ptempl p) (override_of pname pid overrides p)) (match f with FSlice _ n _ => Some n | _ => None end) t ->
        shows_all t (List.length (match f with FGroup _ bs _ _ => bs | _ => fbases (strip f) end))
    | None => True
    end.
  Lemma phrases_contain prim ent wh grp s : s <> "" -> In s [prim; ent; wh; grp] -> contains s (phrases prim ent wh grp).
  Proof. intros Hs H. apply join_contains. apply filter_In. split; [exact H|]. destruct s; [congruence | reflexivity]. Qed.
  Lemma prim_desc_shows f inputs s : prim_desc f inputs = Ok s -> shows f -> List.length inputs = List.length (match f with FGroup _ bs _ _ => bs | _ => fbases (strip f) end) -> forall d, In d inputs -> contains (shown d) s.
  Proof.
    unfold primitive_description, shows. intros H Hs Hl. destruct (fprim f) as [p|]; eapply get_description_shows; try exact H; [rewrite Hl; exact Hs|]. intros t Ht. destruct Ht.
  Qed.
  Lemma phrase_says d x prim ent wh grp : says d x -> In x [prim; ent; wh; grp] -> says d (phrases prim ent wh grp).
  Proof.
    intros Hd Hx. destruct x as [|c x]; [|eapply says_in; [exact Hd | apply phrases_contain; [discriminate | exact Hx]]].
    assert (forall y, contains y "" -> y = "") as Hy. { intros y (a & b & E). destruct a; [|discriminate]. destruct y; [reflexivity | discriminate]. }
    assert (forall z, contains "" z) as Hz by (intros z; exists "", z; reflexivity).
    destruct Hd as [Hd|(d' & -> & Hd)]; apply Hy in Hd; subst; [left; apply Hz | right; exists ""; split; [reflexivity | apply Hz]].
  Qed.
  Lemma contains_says d s : contains d s -> says d s.
  Proof. left. exact H. Qed.
  Lemma last_In {A} (l : list A) x d : List.last (l ++ [x]) d = x /\ removelast (l ++ [x]) = l.
  Proof. split; [apply last_last | apply removelast_last]. Qed.
  Lemma mapM_app_inv {A B} (f : A -> res B) l x ys : mapM f (l ++ [x]) = Ok ys -> exists ys' y, ys = ys' ++ [y] /\ mapM f l = Ok ys' /\ f x = Ok y.
  Proof.
    revert ys. induction l as [|a l IH]; intros ys H; cbn [mapM app] in *.
    - destruct (f x) as [y|]; [|discriminate]. cbn [bind] in H. inversion H; subst. exists [], y. auto.
    - destruct (f a) as [b|]; [|discriminate]. cbn [bind] in *. destruct (mapM f (l ++ [x])) as [zs|] eqn:E; [|discriminate]. cbn [bind] in H. inversion H; subst. destruct (IH zs eq_refl) as (ys' & y & -> & E1 & E2). rewrite E1. cbn [bind]. exists (b :: ys'), y. auto.
  Qed.
  Lemma mapM_len {A B} (f : A -> res B) l ys : mapM f l = Ok ys -> List.length ys = List.length l.
  Proof. revert ys. induction l as [|a l IH]; intros ys H; cbn [mapM] in H; [inversion H; reflexivity|]. destruct (f a); [|discriminate]. cbn [bind] in H. destruct (mapM f l) eqn:E; [|discriminate]. cbn [bind] in H. inversion H; subst. cbn [List.length]. f_equal. apply IH. reflexivity. Qed.
  Lemma mapM_get {A B} (f : A -> res B) l ys a : mapM f l = Ok ys -> In a l -> exists y, In y ys /\ f a = Ok y.
  Proof. revert ys. induction l as [|x l IH]; intros ys H Ha; cbn [mapM] in H; [destruct Ha|]. destruct (f x) as [b|] eqn:Ex; [|discriminate]. cbn [bind] in H. destruct (mapM f l) eqn:E; [|discriminate]. cbn [bind] in H. inversion H; subst. destruct Ha as [->|Ha]; [exists b; split; [left; reflexivity | exact Ex]|]. destruct (IH _ eq_refl Ha) as (y & Hy & E'). exists y. split; [right; exact Hy | exact E']. Qed.
  Theorem C70_inputs descs fuel f s g : fsize f <= fuel -> custom descs f = None -> generate descs fuel f = Ok (Some s) -> shows f -> told_of f g ->
    exists d, generate descs fuel g = Ok d /\ (d = None \/ says (shown d) s).
  Proof.
    intros Hf Hc H Hs Ht. rewrite generate_words in H by exact Hf. rewrite words_eq, Hc in H.
    assert (In g (asked f)) as Ha. { destruct Ht; cbn [asked strip fbases fwhere]; [left; reflexivity| | | | | | |]; apply in_app_iff; try (left; assumption); right; rewrite H0; left; reflexivity. }
    pose proof (asked_size f g Ha) as Hg. rewrite generate_words by lia.
    assert (match f with FDirect _ _ _ | FIdent _ _ _ | FGroup _ _ _ _ => False | _ => True end ->
        exists inputs prim wh, mapM (words descs) (fbases (strip f)) = Ok inputs /\ prim_desc f inputs = Ok prim /\ where_words (words descs) (strip f) = Ok wh /\
        exists grp, s = phrases prim (entity_phrase lower (strip f)) wh grp) as Hgen.
    { intros Hk. destruct f; try destruct Hk; cbn [body] in H;
        (destruct (mapM (words descs) _) as [ins|] eqn:E1; [|discriminate]); cbn [bind split_group fst snd] in H;
        (destruct (prim_desc _ ins) as [prm|] eqn:E2; [|discriminate]); cbn [bind] in H;
        (destruct (where_words _ _) as [wo|] eqn:E3; [|discriminate]); cbn [bind] in H; apply ok_inj in H; injection H as <-; exists ins, prm, wo; rewrite ?E3; repeat split; try assumption; try reflexivity; eexists; reflexivity. }
    assert (forall inputs prim wh grp, s = phrases prim (entity_phrase lower (strip f)) wh grp -> mapM (words descs) (fbases (strip f)) = Ok inputs -> prim_desc f inputs = Ok prim ->
        match f with FGroup _ _ _ _ => False | _ => True end -> In g (fbases (strip f)) -> exists d, words descs g = Ok d /\ (d = None \/ says (shown d) s)) as Hin.
    { intros inputs prim wh grp -> E1 E2 Hk Hi. destruct (mapM_get _ _ _ _ E1 Hi) as (d & Hd & Ed). exists d. split; [exact Ed|]. right. eapply phrase_says; [|left; reflexivity]. apply contains_says. eapply prim_desc_shows; [exact E2 | exact Hs | | exact Hd]. rewrite (mapM_len _ _ _ E1). destruct f; try reflexivity. destruct Hk. }
    assert (forall prim ent wh grp w l, s = phrases prim ent wh grp -> where_words (words descs) (strip f) = Ok wh -> fwhere (strip f) = Some w -> fbases w = g :: l -> exists d, words descs g = Ok d /\ (d = None \/ says (shown d) s)) as Hwh.
    { intros prim ent wh grp w l -> E3 Ew El. unfold where_words in E3. rewrite Ew, El in E3. destruct (words descs g) as [d|]; [|discriminate]. cbn [bind] in E3. exists d. split; [reflexivity|]. right. destruct (fprim w) as [p'|]; [|discriminate]. destruct (pvalue p') as [v|]; [|discriminate]. apply ok_inj in E3. subst wh. eapply phrase_says; [|right; right; left; reflexivity]. apply contains_says, contains_r, contains_l, contains_refl. }
    destruct Ht as [r b nm|p bs nm g Hi|p bs g0 nm g Hi|p bs path u w prev nm g Hi|p bs path u w prev nm g l Hl|p bs nm g n nm' Hi|p bs path u w prev nm g n nm' Hi|p bs path u w prev nm g l n nm' Hl].
    - cbn [body] in H. unfold get_direct_description in H. rewrite chain_origin in H. destruct (words descs (origin b)) as [d|]; [|discriminate]. cbn [bind] in H. exists d. split; [reflexivity|]. right. destruct d as [d|]; [|discriminate]. apply ok_inj in H. injection H as <-. left. apply contains_l, contains_refl.
    - destruct (Hgen I) as (inputs & prim & wh & E1 & E2 & E3 & grp & Es). eapply Hin; eauto; exact I.
    - cbn [body strip fbases] in H. destruct (mapM (words descs) _) as [inputs|] eqn:E1; [|discriminate]. cbn [bind split_group fst snd] in H. apply mapM_app_inv in E1 as (ds & dg & -> & E1 & Eg). rewrite removelast_last, last_last in H.
      destruct (prim_desc _ ds) as [prim|] eqn:E2; [|discriminate]. cbn [bind where_words fwhere] in H. apply ok_inj in H. injection H as <-. apply in_app_iff in Hi as [Hi|[<-|[]]].
      + destruct (mapM_get _ _ _ _ E1 Hi) as (d & Hd & Ed). exists d. split; [exact Ed|]. right. eapply phrase_says; [|left; reflexivity]. apply contains_says. eapply prim_desc_shows; [exact E2 | exact Hs | apply (mapM_len _ _ _ E1) | exact Hd].
      + exists dg. split; [exact Eg|]. destruct dg as [dg|]; [right | left; reflexivity]. eapply phrase_says; [|right; right; right; left; reflexivity]. cbn [groupby_phrase shown]. eapply says_in; [apply drop_the_says | apply contains_r, contains_refl].
    - destruct (Hgen I) as (inputs & prim & wh & E1 & E2 & E3 & grp & Es). eapply Hin; eauto; exact I.
    - destruct (Hgen I) as (inputs & prim & wh & E1 & E2 & E3 & grp & Es). eapply Hwh; eauto; reflexivity.
    - destruct (Hgen I) as (inputs & prim & wh & E1 & E2 & E3 & grp & Es). eapply Hin; eauto; exact I.
    - destruct (Hgen I) as (inputs & prim & wh & E1 & E2 & E3 & grp & Es). eapply Hin; eauto; exact I.
    - destruct (Hgen I) as (inputs & prim & wh & E1 & E2 & E3 & grp & Es). eapply Hwh; eauto; reflexivity.
  Qed.

  (** ** Descriptions given by the user *)
  Lemma find_filter {A} (p q : A -> bool) l : (forall a, p a = true -> q a = true) -> find p (filter q l) = find p l.
  Proof. intros H. induction l as [|a l IH]; cbn [filter find]; [reflexivity|]. destruct (q a) eqn:Q; cbn [find]; rewrite IH; [reflexivity|]. destruct (p a) eqn:P; [|reflexivity]. rewrite (H a P) in Q. discriminate. Qed.
  Lemma get_str_eq descs s : get_str rels descs s = option_map snd (find (fun kd => String.eqb (khash rels (fst kd)) s) descs).
  Proof. unfold get_str. f_equal. induction descs as [|[k d] l IH]; cbn [find fst]; [reflexivity|]. rewrite IH. destruct k; reflexivity. Qed.
  Lemma custom_about descs f : custom descs f = custom (filter (fun kd => about rels f (fst kd)) descs) f.
  Proof.
    unfold M_Words.custom, get_feature. rewrite !get_str_eq. rewrite !find_filter; [reflexivity| |]; intros [k d] H; cbn [fst] in *; unfold about; rewrite H; [apply orb_true_r | reflexivity].
  Qed.
  Lemma find_val (descs : list (dkey * string)) (h : string) d : (exists k, In (k, d) descs /\ khash rels k = h) -> (forall k d', In (k, d') descs -> khash rels k = h -> d' = d) -> option_map snd (find (fun kd => String.eqb (khash rels (fst kd)) h) descs) = Some d.
  Proof.
    intros (k & Hk & Eh) Hu. destruct (find _ descs) as [[k' d']|] eqn:E.
    - apply find_some in E as [Hin E]. apply String.eqb_eq in E. cbn [option_map snd]. f_equal. eapply Hu; eassumption.
    - exfalso. apply (find_none _ _ E) in Hk. cbn [fst] in Hk. apply String.eqb_neq in Hk. congruence.
  Qed.
  Lemma find_no (descs : list (dkey * string)) (h : string) : (forall k d', In (k, d') descs -> khash rels k <> h) -> option_map snd (find (fun kd => String.eqb (khash rels (fst kd)) h) descs) = None.
  Proof. intros Hn. destruct (find _ descs) as [[k' d']|] eqn:E; [|reflexivity]. apply find_some in E as [Hin E]. apply String.eqb_eq in E. exfalso. eapply Hn; eassumption. Qed.
  (** A description given for the feature itself is used, and else one given for its unique name *)
  Theorem C70_custom descs fuel f c d : let cd := String c d in
    ((exists k, In (k, cd) descs /\ khash rels k = fhash rels f) /\ (forall k d', In (k, d') descs -> khash rels k = fhash rels f -> d' = cd)) \/
    ((forall k d', In (k, d') descs -> khash rels k <> fhash rels f) /\ (exists k, In (k, cd) descs /\ khash rels k = funique rels f) /\
     (forall k d', In (k, d') descs -> khash rels k = funique rels f -> d' = cd)) ->
    describe descs fuel f = Ok (upper (String c "") ++ d ++ ".")%string.
  Proof.
    intros cd H. unfold describe_feature. assert (custom descs f = Some (Some cd)) as Hc.
    { unfold M_Words.custom, get_feature. rewrite get_str_eq. destruct H as [(He & Hu)|(Hn & He & Hu)]; [rewrite (find_val _ _ _ He Hu) | rewrite (find_no _ _ Hn), (find_val _ _ _ He Hu)]; reflexivity. }
    destruct fuel; cbn [M_Words.generate]; rewrite Hc; reflexivity.
  Qed.
  Definition index_feature (g : feat) : feat := FIdent (fentity g) (index (fentity g)) None.
  Lemma asked_reaches f g : In g (asked f) -> reaches f g.
  Proof.
    assert (forall h x, In x (fbases h) -> reaches h x) as Hb. { intros h x Hx. eapply reaches_dep; [unfold fdeps; apply in_app_iff; left; exact Hx | constructor]. }
    assert (forall h, reaches h (strip h)) as Hst. { intros h. destruct h; cbn [strip]; try constructor. apply Hb. left; reflexivity. }
    assert (forall a b c, reaches a b -> reaches b c -> reaches a c) as Htr. { intros a b c H. revert c. induction H as [a|a d b Hd H IH]; intros c Hc; [exact Hc|]. eapply reaches_dep; [exact Hd | apply IH; exact Hc]. }
    assert (forall h, reaches h (origin h)) as Hor. { induction h; cbn [origin]; try constructor. eapply reaches_dep; [left; reflexivity | exact IHh]. }
    intros H. destruct f; cbn [asked] in H; try (destruct H; fail);
      try (apply in_app_iff in H as [H|H]; [eapply Htr; [apply Hst | apply Hb; exact H]|]; eapply Htr; [apply Hst|]; destruct (fwhere (strip _)) as [w|] eqn:Ew; [|destruct H]; eapply reaches_dep; [unfold fdeps; rewrite Ew; apply in_app_iff; right; left; reflexivity|]; apply Hb; destruct (fbases w); [destruct H|]; destruct H as [->|[]]; left; reflexivity).
    destruct H as [<-|[]]. eapply reaches_dep; [left; reflexivity | apply Hor].
  Qed.
  Lemma reaches_more f g h : In g (asked f) -> reaches g h -> reaches f h.
  Proof. intros Hg Hh. apply asked_reaches in Hg. induction Hg as [f|f d g Hd H IH]; [exact Hh|]. eapply reaches_dep; [exact Hd | apply IH; exact Hh]. Qed.
  (** Only descriptions of the features it is built from, and of the indexes of the entities it aggregates for, matter *)
  Theorem C70_local d1 d2 fuel f :
    (forall g, reaches f g -> filter (fun kd => about rels g (fst kd)) d1 = filter (fun kd => about rels g (fst kd)) d2) ->
    (forall g, reaches f g -> match g with FAgg _ _ _ _ _ _ _ => True | _ => False end ->
       filter (fun kd => about rels (index_feature g) (fst kd)) d1 = filter (fun kd => about rels (index_feature g) (fst kd)) d2) ->
    describe d1 fuel f = describe d2 fuel f.
  Proof.
    intros H1 H2. unfold describe_feature. enough (generate d1 fuel f = generate d2 fuel f) as -> by reflexivity. revert f H1 H2. induction fuel as [|n IH]; intros f H1 H2.
    - assert (custom d1 f = custom d2 f) as Hc by (rewrite (custom_about d1), (custom_about d2), (H1 f); [reflexivity | constructor]). cbn [M_Words.generate]. rewrite Hc. reflexivity.
    - assert (custom d1 f = custom d2 f) as Hc by (rewrite (custom_about d1), (custom_about d2), (H1 f); [reflexivity | constructor]).
      rewrite !generate_S, Hc. destruct (custom d2 f); [reflexivity|]. rewrite (body_ext d1 _ (generate d2 n)).
      + assert (forall g, reaches f g -> match g with FAgg _ _ _ _ _ _ _ => agg_group d1 (fentity g) = agg_group d2 (fentity g) | _ => True end) as Hg.
        { intros g Hr. destruct g; try exact I. unfold get_aggregation_groupby. specialize (H2 _ Hr I). unfold index_feature in H2. rewrite (custom_about d1), (custom_about d2), H2. reflexivity. }
        assert (reaches f (strip f)) as Hr. { destruct f; cbn [strip]; try constructor. eapply reaches_dep; [left; reflexivity | constructor]. }
        specialize (Hg _ Hr). destruct f; cbn [body strip] in *; try reflexivity; [rewrite Hg; reflexivity|]. destruct f; try reflexivity. rewrite Hg. reflexivity.
      + intros g Hg. apply IH; intros h Hh; [apply H1 | apply H2]; eapply reaches_more; eassumption.
  Qed.

  (** ** There is always a description *)
  Definition inputs_of (f : feat) : list feat := match f with FGroup _ bs _ _ => bs | _ => fbases (strip f) end.
  Definition says_how (f : feat) : Prop :=
    match fprim f with
    | Some p => well_formed (chosen (ptempl p) (override_of pname pid overrides p)) (match f with FSlice _ n _ => Some n | _ => None end) (List.length (inputs_of f))
    | None => True
    end.
  Definition equal_to_value (w : feat) : Prop := fbases w <> [] /\ exists p v, fprim w = Some p /\ pvalue p = Some v.
  Lemma custom_some descs f : (forall k, ~ In (k, ""%string) descs) -> match custom descs f with Some d => exists s, d = Some s | None => True end.
  Proof.
    intros He. assert (forall h, option_map snd (find (fun kd => String.eqb (khash rels (fst kd)) h) descs) <> Some "") as Hf.
    { intros h. destruct (find _ descs) as [[k d]|] eqn:E; [|discriminate]. cbn [option_map snd]. intros [= ->]. apply find_some in E as [Hi _]. exact (He k Hi). }
    unfold M_Words.custom, get_feature. rewrite get_str_eq. pose proof (Hf (fhash rels f)) as Ha. pose proof (Hf (funique rels f)) as Hb. destruct (option_map _ _) as [a|]; destruct (option_map snd _) as [b|]; cbn [nonempty]; eauto; destruct a; try congruence; eauto.
  Qed.
  Lemma words_total descs : (forall k, ~ In (k, ""%string) descs) -> forall n f, fsize f <= n ->
    (forall g, reaches f g -> says_how g) -> (forall g w, reaches f g -> fwhere g = Some w -> equal_to_value w) -> exists s, words descs f = Ok (Some s).
  Proof.
    intros He. induction n as [|n IH]; intros f Hn Hp Hw; [destruct f; cbn in Hn; lia|]. rewrite words_eq. pose proof (custom_some descs f He) as Hc. destruct (custom descs f) as [d|]; [destruct Hc as (s & ->); eauto|].
    assert (forall g, In g (asked f) -> exists s, words descs g = Ok (Some s)) as Hs. { intros g Hg. apply IH; [apply asked_size in Hg; lia| |]; intros h; intros; [apply Hp | eapply Hw; [|eassumption]]; eapply reaches_more; eassumption. }
    assert (forall l, (forall g, In g l -> exists s, words descs g = Ok (Some s)) -> exists ds, mapM (words descs) l = Ok ds /\ forall d, In d ds -> d <> None) as Hm.
    { induction l as [|a l IHl]; intros H; cbn [mapM]; [exists []; split; [reflexivity | intros d []]|]. destruct (H a (or_introl eq_refl)) as (s & ->). cbn [bind]. destruct IHl as (ds & -> & Hd); [intros g Hg; apply H; right; exact Hg|]. cbn [bind]. exists (Some s :: ds). split; [reflexivity|]. intros d [<-|Hd']; [discriminate | apply Hd; exact Hd']. }
    assert (exists wh, where_words (words descs) (strip f) = Ok wh \/ match f with FDirect _ _ _ | FIdent _ _ _ => True | _ => False end) as (wo & Hwo).
    { destruct f; try (exists ""; right; exact I); unfold where_words; cbn [asked] in Hs; (destruct (fwhere (strip _)) as [w|] eqn:Ew; [|exists ""; left; reflexivity]);
        (assert (equal_to_value w) as (Hb & p' & v' & Ep & Ev) by (eapply Hw; [|exact Ew]; first [constructor | eapply reaches_dep; [left; reflexivity | constructor]]));
        (destruct (fbases w) as [|b l'] eqn:Eb; [congruence|]); (destruct (Hs b) as (sb & Esb); [apply in_app_iff; right; left; reflexivity|]); rewrite Esb, Ep, Ev; cbn [bind]; eexists; left; reflexivity. }
    destruct f as [e v nm|r b nm|p bs path u w prev nm|p bs nm|p bs g nm|b i nm]; cbn [body].
    - eauto.
    - unfold get_direct_description. rewrite chain_origin. destruct (Hs (origin b)) as (s & ->); [left; reflexivity|]. cbn [bind]. eauto.
    - destruct Hwo as [Hwo|[]]. destruct (Hm (fbases (strip (FAgg p bs path u w prev nm)))) as (ds & E & Hd); [intros g Hg; apply Hs, in_app_iff; left; exact Hg|]. rewrite E. cbn [bind split_group fst snd].
      assert (exists t, prim_desc (FAgg p bs path u w prev nm) ds = Ok t) as (t & ->). { unfold primitive_description. cbn [fprim]. apply get_description_ok; [|exact Hd]. rewrite (mapM_len _ _ _ E). exact (Hp _ (reaches_refl _)). }
      cbn [bind]. rewrite Hwo. cbn [bind]. eauto.
    - destruct Hwo as [Hwo|[]]. destruct (Hm (fbases (strip (FTrans p bs nm)))) as (ds & E & Hd); [intros g Hg; apply Hs, in_app_iff; left; exact Hg|]. rewrite E. cbn [bind split_group fst snd].
      assert (exists t, prim_desc (FTrans p bs nm) ds = Ok t) as (t & ->). { unfold primitive_description. cbn [fprim]. apply get_description_ok; [|exact Hd]. rewrite (mapM_len _ _ _ E). exact (Hp _ (reaches_refl _)). }
      cbn [bind]. rewrite Hwo. cbn [bind]. eauto.
    - destruct Hwo as [Hwo|[]]. destruct (Hm (fbases (strip (FGroup p bs g nm)))) as (ds & E & Hd); [intros h Hh; apply Hs, in_app_iff; left; exact Hh|]. rewrite E. cbn [strip fbases] in E. apply mapM_app_inv in E as (ds' & dg & -> & E & Eg). cbn [bind split_group fst snd]. rewrite removelast_last.
      assert (exists t, prim_desc (FGroup p bs g nm) ds' = Ok t) as (t & ->). { unfold primitive_description. cbn [fprim]. apply get_description_ok; [|intros d Hi; apply Hd, in_app_iff; left; exact Hi]. rewrite (mapM_len _ _ _ E). exact (Hp _ (reaches_refl _)). }
      cbn [bind]. rewrite Hwo. cbn [bind]. eauto.
    - destruct Hwo as [Hwo|[]]. destruct (Hm (fbases (strip (FSlice b i nm)))) as (ds & E & Hd); [intros g Hg; apply Hs, in_app_iff; left; exact Hg|]. rewrite E. cbn [bind split_group fst snd].
      assert (exists t, prim_desc (FSlice b i nm) ds = Ok t) as (t & ->).
      { unfold primitive_description. pose proof (Hp _ (reaches_refl _)) as Hh. unfold says_how in Hh. destruct (fprim (FSlice b i nm)) as [p|]; apply get_description_ok; try exact Hd; [rewrite (mapM_len _ _ _ E); exact Hh | left; reflexivity]. }
      cbn [bind]. rewrite Hwo. cbn [bind]. eauto.
  Qed.
  (** When no given description is empty, the templates take the inputs their primitives have and conditions compare with a value,
      every feature has a description, and it ends with a full stop *)
  Theorem C70_total descs fuel f : (forall k, ~ In (k, ""%string) descs) -> fsize f <= fuel ->
    (forall g, reaches f g -> says_how g) -> (forall g w, reaches f g -> fwhere g = Some w -> equal_to_value w) ->
    exists s, describe descs fuel f = Ok s /\ ends_with "." s.
  Proof.
    intros He Hf Hp Hw. destruct (words_total descs He (fsize f) f (le_n _) Hp Hw) as (s & Hs). unfold describe_feature. rewrite generate_words by exact Hf. rewrite Hs. cbn [bind].
    destruct s as [|c s]; eexists; (split; [reflexivity|]); [eexists; reflexivity|]. exists (upper (String c "") ++ s)%string. rewrite app_assoc_s. reflexivity.
  Qed.

  (** ** What an aggregation says *)
  Theorem C70_aggregation descs fuel p bs path r u w prev nm s : let f := FAgg p bs (path ++ [r]) u w prev nm in
    fsize f <= fuel -> custom descs f = None -> generate descs fuel f = Ok (Some s) ->
    contains ((match prev with Some d => "of the previous " ++ lower (td_name d) ++ " of " | None => "of all instances of " end) ++ """" ++ r_ce r ++ """")%string s /\
    (forall w', w = Some w' -> exists p' v, fprim w' = Some p' /\ pvalue p' = Some v /\ contains (" is " ++ v) s) /\
    (custom descs (index_feature f) = None -> contains ("for each """ ++ index (fentity f) ++ """ in """ ++ fentity f ++ """")%string s) /\
    (forall d, custom descs (index_feature f) = Some (Some d) -> says d s).
  Proof.
    intros f Hf Hc H. rewrite generate_words in H by exact Hf. rewrite words_eq, Hc in H. unfold f in H. cbn [body] in H. destruct (mapM _ _) as [ds|]; [|discriminate]. cbn [bind] in H. destruct (prim_desc _ _) as [t|]; [|discriminate]. cbn [bind] in H. destruct (where_words _ _) as [wo|] eqn:Ew; [|discriminate]. cbn [bind] in H. apply ok_inj in H. injection H as <-. cbn [strip].
    assert (forall a b, contains a b -> a <> "" -> forall x y z v, In b [x; y; z; v] -> contains a (phrases x y z v)) as Hph. { intros a b Hab Ha x y z v Hi. eapply contains_trans; [exact Hab|]. apply phrases_contain; [|exact Hi]. intros ->. destruct Hab as (a1 & a2 & E). destruct a1; [destruct a; [congruence | discriminate] | discriminate]. }
    split; [|split; [|split]].
    - eapply Hph; [apply contains_refl| |].
      + destruct prev; discriminate.
      + right; left. unfold entity_phrase. rewrite rev_app_distr. reflexivity.
    - intros w' ->. unfold where_words in Ew. cbn [strip fwhere] in Ew. destruct (fbases w'); [discriminate|]. destruct (words descs f0) as [d|]; [|discriminate]. cbn [bind] in Ew. destruct (fprim w') as [p'|] eqn:Ep; [|discriminate]. destruct (pvalue p') as [v|] eqn:Ev; [|discriminate]. apply ok_inj in Ew. exists p', v. split; [reflexivity|]. split; [exact Ev|]. eapply Hph with (b := wo); [| discriminate | right; right; left; reflexivity]. subst wo. apply contains_r, contains_r, contains_refl.
    - intros Hi. eapply Hph with (b := groupby_phrase (agg_group descs (fentity f))); [| discriminate | right; right; right; left; reflexivity]. unfold get_aggregation_groupby. unfold index_feature in Hi. rewrite Hi. cbn [groupby_phrase]. unfold drop_the. cbn [String.prefix append]. apply contains_refl.
    - intros d Hi. eapply phrase_says with (x := groupby_phrase (agg_group descs (fentity f))); [|right; right; right; left; reflexivity]. unfold get_aggregation_groupby. unfold index_feature in Hi. rewrite Hi. cbn [groupby_phrase]. eapply says_in; [apply drop_the_says | apply contains_r, contains_refl].
  Qed.
  (** ** What an output and a parent's feature say *)
  Lemma format_nth args nth t : In Nth t -> forall i m s, format_from i m args (Some nth) t = Ok s -> contains nth s.
  Proof.
    assert (forall a b : string, contains b (a ++ b)%string) as Hr by (intros; apply contains_r, contains_refl).
    induction t as [|p t IH]; intros H i m s Hs; [destruct H|]. cbn [format_from] in Hs. destruct p as [l| |j|].
    - destruct H as [H|H]; [discriminate|]. destruct (format_from i m args (Some nth) t) as [x|] eqn:E; [|discriminate]. cbn [bind] in Hs. apply ok_inj in Hs. subst s. eapply contains_trans; [eapply IH; eassumption | apply Hr].
    - destruct H as [H|H]; [discriminate|]. destruct m; [discriminate|]. destruct (get_arg args i); [|discriminate]. cbn [bind] in Hs. destruct (format_from (S i) false args (Some nth) t) as [x|] eqn:E; [|discriminate]. cbn [bind] in Hs. apply ok_inj in Hs. subst s. eapply contains_trans; [eapply IH; eassumption | apply Hr].
    - destruct H as [H|H]; [discriminate|]. destruct (0 <? i)%nat; [discriminate|]. destruct (get_arg args j); [|discriminate]. cbn [bind] in Hs. destruct (format_from i true args (Some nth) t) as [x|] eqn:E; [|discriminate]. cbn [bind] in Hs. apply ok_inj in Hs. subst s. eapply contains_trans; [eapply IH; eassumption | apply Hr].
    - destruct (format_from i m args (Some nth) t) as [x|] eqn:E; [|discriminate]. cbn [bind] in Hs. apply ok_inj in Hs. subst s. apply contains_l, contains_refl.
  Qed.
  Theorem C70_output descs fuel b n nm p s : let f := FSlice b n nm in
    fsize f <= fuel -> custom descs f = None -> generate descs fuel f = Ok (Some s) -> fprim f = Some p ->
    let ts := chosen (ptempl p) (override_of pname pid overrides p) in
    falsy ts = true \/ (exists l t, ts = Some (Many l) /\ (nth_error l (S n) = Some t \/ List.length l <= S n /\ nth_error l 1 = Some t) /\ In Nth t) ->
    contains (convert_to_nth (S n)) s.
  Proof.
    intros f Hf Hc H Hp ts Ht. rewrite generate_words in H by exact Hf. rewrite words_eq, Hc in H. unfold f in H. cbn [body] in H. destruct (mapM _ _) as [ds|]; [|discriminate]. cbn [bind split_group fst snd] in H. destruct (prim_desc _ _) as [t0|] eqn:Et; [|discriminate]. cbn [bind] in H. destruct (where_words _ _) as [wo|] eqn:Ew; [|discriminate]. cbn [bind] in H. apply ok_inj in H. injection H as <-.
    enough (contains (convert_to_nth (S n)) t0) as Hn. { eapply contains_trans; [exact Hn|]. apply phrases_contain; [|left; reflexivity]. intros ->. destruct Hn as (x & y & E). unfold convert_to_nth in E. destruct x; [|discriminate]. destruct (last_digit (S n)) as (z & Ez & _). rewrite Ez in E. destruct z; discriminate. }
    unfold primitive_description, f in *. rewrite Hp in Et. unfold get_description in Et. fold (chosen (ptempl p) (override_of pname pid overrides p)) in Et. fold ts in Et. destruct Ht as [Ht|(l & t & Ets & Hl & Hin)].
    - rewrite Ht in Et. destruct (all_strings ds); [|discriminate]. cbn [bind] in Et. apply ok_inj in Et. subst t0. apply contains_r, contains_l, contains_refl.
    - rewrite Ets in Et. destruct l as [|t1 l]; [destruct Hl as [Hl|[_ Hl]]; discriminate|]. cbn [falsy] in Et. destruct Hl as [Hl|[Hl1 Hl2]].
      + rewrite Hl in Et. eapply format_nth; [exact Hin | exact Et].
      + apply nth_error_None in Hl1. rewrite Hl1 in Et. destruct (2 <? _)%nat; [discriminate|]. rewrite Hl2 in Et. eapply format_nth; [exact Hin | exact Et].
  Qed.
  Lemma chain_says b : forall acc, exists mid, snd (direct_chain b acc) = (" for" ++ mid ++ acc)%string.
  Proof. induction b; intros acc; try (exists ""; reflexivity). cbn [direct_chain snd]. destruct (IHb (" the instance of """ ++ r_pe r ++ """ associated with" ++ acc)%string) as (mid & E). exists (mid ++ " the instance of """ ++ r_pe r ++ """ associated with")%string. rewrite E, !app_assoc_s. reflexivity. Qed.
  (** the parent and the child are named *)
  Theorem C70_parent descs fuel r b nm s : let f := FDirect r b nm in
    fsize f <= fuel -> custom descs f = None -> generate descs fuel f = Ok (Some s) ->
    exists d mid, generate descs fuel (origin b) = Ok (Some d) /\ s = (d ++ " for" ++ mid ++ " the instance of """ ++ r_pe r ++ """ associated with this instance of """ ++ r_ce r ++ """")%string /\
      match b with FDirect r' _ _ => ends_with (" the instance of """ ++ r_pe r' ++ """ associated with") mid | _ => mid = "" end.
  Proof.
    intros f Hf Hc H. rewrite generate_words in H by exact Hf. rewrite words_eq, Hc in H. unfold f in H. cbn [body] in H. unfold get_direct_description in H. rewrite chain_origin in H. pose proof (origin_size b) as Ho. rewrite generate_words by (unfold f in Hf; cbn [fsize] in Hf; lia). destruct (words descs (origin b)) as [[d|]|]; try discriminate. cbn [bind] in H. apply ok_inj in H. injection H as <-. exists d.
    destruct b as [e v nm'|r' b nm'|p bs path u w prev nm'|p bs nm'|p bs g nm'|b i nm']; try (exists ""; split; [reflexivity | split; reflexivity]). cbn [direct_chain].
    match goal with |- context [direct_chain b ?acc] => destruct (chain_says b acc) as (mid & E) end. exists (mid ++ " the instance of """ ++ r_pe r' ++ """ associated with")%string. split; [reflexivity|]. split; [rewrite E, !app_assoc_s; reflexivity | eexists; reflexivity].
  Qed.
End Words.

(** ** A description file: what is given by hand replaces it *)
Lemma merge_get rels : forall given file h, option_map snd (find (fun kd => String.eqb (khash rels (fst kd)) h) (merge rels file given)) =
  match option_map snd (find (fun kd => String.eqb (khash rels (fst kd)) h) (rev given)) with Some d => Some d | None => option_map snd (find (fun kd => String.eqb (khash rels (fst kd)) h) file) end.
Proof.
  set (get := fun h l => option_map (@snd dkey string) (find (fun kd => String.eqb (khash rels (fst kd)) h) l)).
  assert (forall h l l', get h (l ++ l') = match get h l with Some d => Some d | None => get h l' end) as Happ.
  { intros h l l'. unfold get. induction l as [|a l IH]; cbn [app find option_map]; [reflexivity|]. destruct (String.eqb _ h); [reflexivity | exact IH]. }
  assert (forall h kd d, get h (if existsb (fun kd' => String.eqb (khash rels (fst kd')) (khash rels (fst kd))) d
    then map (fun kd' => if String.eqb (khash rels (fst kd')) (khash rels (fst kd)) then (fst kd', snd kd) else kd') d else d ++ [kd]) = if String.eqb (khash rels (fst kd)) h then Some (snd kd) else get h d) as Hstep.
  { intros h kd d. destruct (existsb _ d) eqn:Ex.
    - unfold get. induction d as [|a d IH]; [discriminate|]. cbn [existsb] in Ex. cbn [map find]. destruct (String.eqb (khash rels (fst a)) (khash rels (fst kd))) eqn:Ea.
      + cbn [fst]. apply String.eqb_eq in Ea. rewrite <- Ea. destruct (String.eqb (khash rels (fst a)) h) eqn:Eh; [reflexivity|]. clear IH Ex. induction d as [|b d IH]; [reflexivity|]. cbn [map find]. destruct (String.eqb (khash rels (fst b)) (khash rels (fst a))) eqn:Eb; cbn [fst]; [apply String.eqb_eq in Eb; rewrite Eb, Eh; exact IH|]. destruct (String.eqb (khash rels (fst b)) h); [reflexivity | exact IH].
      + cbn [orb] in Ex. specialize (IH Ex). destruct (String.eqb (khash rels (fst a)) h) eqn:Eh; [|exact IH]. apply String.eqb_eq in Eh. subst h. rewrite String.eqb_sym, Ea. reflexivity.
    - rewrite Happ. unfold get at 2. cbn [find]. destruct (String.eqb (khash rels (fst kd)) h) eqn:Eh; cbn [option_map]; [|destruct (get h d); reflexivity]. apply String.eqb_eq in Eh. subst h. enough (get (khash rels (fst kd)) d = None) as -> by reflexivity. unfold get. clear - Ex. induction d as [|a d IH]; [reflexivity|]. cbn [existsb find] in *. apply orb_false_iff in Ex as [E1 E2]. rewrite E1. apply IH. exact E2. }
  change (forall given file h, get h (merge rels file given) = match get h (rev given) with Some d => Some d | None => get h file end).
  induction given as [|kd given IH]; intros file h; [reflexivity|]. unfold merge. cbn [fold_left rev]. fold (merge rels). change (get h (merge rels (if existsb (fun kd' => String.eqb (khash rels (fst kd')) (khash rels (fst kd))) file
    then map (fun kd' => if String.eqb (khash rels (fst kd')) (khash rels (fst kd)) then (fst kd', snd kd) else kd') file else file ++ [kd]) given) = match get h (rev given ++ [kd]) with Some d => Some d | None => get h file end).
  rewrite IH, Hstep, Happ. destruct (get h (rev given)); [reflexivity|]. unfold get at 2. cbn [find]. destruct (String.eqb (khash rels (fst kd)) h); reflexivity.
Qed.
(** [l] gives the description [d] under the key hashed as [h], and no other *)
Definition gives (rels : list relationship) (l : list (dkey * string)) (h d : string) : Prop :=
  (exists k, In (k, d) l /\ khash rels k = h) /\ (forall k d', In (k, d') l -> khash rels k = h -> d' = d).
Definition silent (rels : list relationship) (l : list (dkey * string)) (h : string) : Prop := forall k d', In (k, d') l -> khash rels k <> h.
Theorem C70_file rels vdesc index pname ptempl pvalue pid upper lower overrides file given fuel f c d : let cd := String c d in
  gives rels given (fhash rels f) cd \/
  (silent rels given (fhash rels f) /\ silent rels file (fhash rels f) /\ gives rels given (funique rels f) cd) \/
  (silent rels given (fhash rels f) /\ gives rels file (fhash rels f) cd) \/
  (silent rels given (fhash rels f) /\ silent rels file (fhash rels f) /\ silent rels given (funique rels f) /\ gives rels file (funique rels f) cd) ->
  describe_feature rels vdesc index pname ptempl pvalue pid upper lower (merge rels file given) overrides fuel f = Ok (upper (String c "") ++ d ++ ".")%string.
Proof.
  intros cd H. assert (forall l h x, gives rels l h x -> gives rels (rev l) h x) as Hg. { intros l h x [(k & Hk & E) Hu]. split; [exists k; rewrite <- in_rev; auto|]. intros k' d' Hk'. rewrite <- in_rev in Hk'. apply Hu; exact Hk'. }
  assert (forall l h, silent rels l h -> silent rels (rev l) h) as Hsl. { intros l h Hs k x Hk. rewrite <- in_rev in Hk. eapply Hs; exact Hk. }
  assert (custom rels (merge rels file given) f = Some (Some cd)) as Hc.
  { unfold custom, get_feature. rewrite get_str_eq, !merge_get. destruct H as [H|[(H1 & H2 & H3)|[(H1 & H2)|(H1 & H2 & H3 & H4)]]].
    - apply Hg in H as [He Hu]. rewrite (find_val _ _ _ _ He Hu). reflexivity.
    - apply Hg in H3 as [He Hu]. rewrite (find_no _ _ _ (Hsl _ _ H1)), (find_no _ _ _ H2), (find_val _ _ _ _ He Hu). reflexivity.
    - destruct H2 as [He Hu]. rewrite (find_no _ _ _ (Hsl _ _ H1)), (find_val _ _ _ _ He Hu). reflexivity.
    - destruct H4 as [He Hu]. rewrite (find_no _ _ _ (Hsl _ _ H1)), (find_no _ _ _ H2), (find_no _ _ _ (Hsl _ _ H3)), (find_val _ _ _ _ He Hu). reflexivity. }
  unfold describe_feature. destruct fuel; cbn [generate]; rewrite Hc; reflexivity.
Qed.

