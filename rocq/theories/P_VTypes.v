(** C94: names of variable types. *)
From Coq Require Import String Ascii List Bool Lia Arith.
From Verif Require Import Base BaseFacts M_VTypes S_VTypes.
Import ListNotations.
Local Open Scope string_scope.
Local Open Scope list_scope.

Lemma upper_In : forall a, is_upper a = true <-> In a capitals.
Proof.
  intros a. split.
  - destruct a as [[] [] [] [] [] [] [] []]; vm_compute; intro H; try discriminate H; tauto.
  - cbn [In list_ascii_of_string capitals small_letters]. intros H. repeat (destruct H as [H | H]; [subst a; reflexivity|]). destruct H.
Qed.

Lemma lower_In : forall a, is_lower a = true <-> In a small_letters.
Proof.
  intros a. split.
  - destruct a as [[] [] [] [] [] [] [] []]; vm_compute; intro H; try discriminate H; tauto.
  - cbn [In list_ascii_of_string capitals small_letters]. intros H. repeat (destruct H as [H | H]; [subst a; reflexivity|]). destruct H.
Qed.

Lemma char_kinds : forall a, is_upper a = true -> is_lower a = false /\ is_digit a = false.
Proof. intros a. destruct a as [[] [] [] [] [] [] [] []]; vm_compute; intro H; try discriminate H; auto. Qed.

Lemma lower_not_upper : forall a, is_upper (to_lower a) = false.
Proof. intros a. destruct a as [[] [] [] [] [] [] [] []]; reflexivity. Qed.

Lemma to_lower_id : forall a, is_upper a = false -> to_lower a = a.
Proof. intros a H. unfold to_lower. rewrite H. reflexivity. Qed.

Lemma small_eq : forall a, to_lower a = small a.
Proof. intros a. destruct a as [[] [] [] [] [] [] [] []]; reflexivity. Qed.

Lemma smalls_eq : forall s, slower s = smalls s.
Proof. intros s. unfold slower, smalls. f_equal. apply map_ext. exact small_eq. Qed.

Lemma one_of_kinds : forall a, one_of capitals a = is_upper a /\ one_of small_letters a = is_lower a /\ one_of digits a = is_digit a.
Proof. intros a. destruct a as [[] [] [] [] [] [] [] []]; repeat split. Qed.

Lemma slower_cons : forall a s, slower (String a s) = String (to_lower a) (slower s).
Proof. reflexivity. Qed.

(** underscores put before capitals, before lower-casing *)
Inductive spaced : bool -> string -> string -> Prop :=
  | sd_end p : spaced p "" ""
  | sd_char p c s t : spaced true s t -> spaced p (String c s) (String c t)
  | sd_word c s t : is_upper c = true -> spaced true s t -> spaced true (String c s) (String "_" (String c t)).

Lemma sub_words_spaced : forall n s b p, String.length s <= n -> spaced p s (sub_words b s).
Proof.
  induction n as [|n IH]; intros s b p Hn.
  - destruct s as [|c t]; [constructor | cbn in Hn; lia].
  - destruct s as [|c t]; [constructor|]. cbn [sub_words]. cbn [String.length] in Hn.
    destruct (b && is_lower c); [apply sd_char; apply IH; lia|].
    destruct t as [|u r]; [repeat constructor|]. cbn [String.length] in Hn.
    destruct (is_upper u && starts is_lower r) eqn:E.
    + apply andb_prop in E. apply sd_char. apply sd_word; [apply E|]. apply IH. lia.
    + apply sd_char. apply IH. cbn [String.length]. lia.
Qed.

Lemma sub_caps_upper : forall c t, is_upper c = true -> sub_caps (String c t) = String c (sub_caps t).
Proof. intros c t H. destruct (char_kinds c H) as [H1 H2]. destruct t as [|u r]; [reflexivity|]. cbn [sub_caps]. rewrite H1, H2. reflexivity. Qed.

Lemma sub_caps_under : forall t, sub_caps (String "_" t) = String "_" (sub_caps t).
Proof. intros t. destruct t as [|u r]; reflexivity. Qed.

Lemma sub_caps_spelled : forall n t s p, String.length t <= n -> spaced p s t -> spelled p s (slower (sub_caps t)).
Proof.
  induction n as [|n IH]; intros t s p Hn H.
  - destruct t; [|cbn in Hn; lia]. inversion H; subst. constructor.
  - inversion H as [q | q c s' t' H' | c s' t' Hu H']; subst.
    + constructor.
    + cbn [String.length] in Hn. destruct t' as [|u r].
      * inversion H'; subst. change (spelled p (String c "") (String (to_lower c) "")). rewrite small_eq. apply sp_char. constructor.
      * cbn [sub_caps]. destruct ((is_lower c || is_digit c) && is_upper u) eqn:E.
        -- apply andb_prop in E. destruct E as [_ E]. rewrite !slower_cons, !small_eq. apply sp_char.
           inversion H' as [| q c' s'' t'' H'' | c' s'' t'' Hu'' H'']; subst.
           ++ cbn [String.length] in Hn. change (small "_") with "_"%char. apply sp_word; [apply upper_In; exact E|]. apply IH; [lia | exact H''].
           ++ discriminate E.
        -- rewrite slower_cons, small_eq. apply sp_char. apply (IH (String u r)); [lia | exact H'].
    + cbn [String.length] in Hn. rewrite sub_caps_under, (sub_caps_upper _ _ Hu), !slower_cons, !small_eq.
      change (small "_") with "_"%char. apply sp_word; [apply upper_In; exact Hu|]. apply IH; [lia | exact H'].
Qed.

(** C94: a type string is the class name in lower case, with underscores added before capitals only *)
Theorem C94_spelling : forall s, spelled false s (camel_to_snake s).
Proof.
  intros s. unfold camel_to_snake. eapply sub_caps_spelled; [apply le_n|]. eapply sub_words_spaced; apply le_n.
Qed.

Lemma spelled_small : forall p s t, spelled p s t -> (forall a, In a (list_ascii_of_string t) -> is_upper a = false).
Proof.
  intros p s t H. induction H as [| p c s t H IH | c s t Hc H IH]; cbn [list_ascii_of_string In]; intros a Ha.
  - destruct Ha.
  - destruct Ha as [<- | Ha]; [rewrite <- small_eq; apply lower_not_upper | exact (IH a Ha)].
  - destruct Ha as [<- | [<- | Ha]]; [reflexivity | rewrite <- small_eq; apply lower_not_upper | exact (IH a Ha)].
Qed.

Lemma spelled_fix : forall p s t, spelled p s t -> (forall a, In a (list_ascii_of_string s) -> is_upper a = false) -> t = s.
Proof.
  intros p s t H. induction H as [| p c s t H IH | c s t Hc H IH]; cbn [list_ascii_of_string In]; intros Hs.
  - reflexivity.
  - rewrite IH by (intros a Ha; apply Hs; right; exact Ha). rewrite <- small_eq, to_lower_id by (apply Hs; left; reflexivity). reflexivity.
  - apply upper_In in Hc. rewrite (Hs c (or_introl eq_refl)) in Hc. discriminate Hc.
Qed.

(** C94: a type string holds no capital, and is its own type string *)
Theorem C94_small : forall s,
  (forall a, In a (list_ascii_of_string (camel_to_snake s)) -> ~ In a capitals) /\
  camel_to_snake (camel_to_snake s) = camel_to_snake s.
Proof.
  intros s. pose proof (spelled_small _ _ _ (C94_spelling s)) as Hs. split.
  - intros a Ha Hu. apply upper_In in Hu. rewrite (Hs a Ha) in Hu. discriminate Hu.
  - exact (spelled_fix _ _ _ (C94_spelling (camel_to_snake s)) Hs).
Qed.

Lemma low_not_up : forall a, is_lower a = true -> is_upper a = false.
Proof. intros a. destruct a as [[] [] [] [] [] [] [] []]; vm_compute; intro H; try discriminate H; auto. Qed.

Lemma sub_caps_pass : forall a b t, is_upper b = false -> sub_caps (String a (String b t)) = String a (sub_caps (String b t)).
Proof. intros a b t H. cbn [sub_caps]. rewrite H, andb_false_r. reflexivity. Qed.

Lemma sub_caps_cut : forall a u t, is_lower a = true -> is_upper u = true -> sub_caps (String a (String u t)) = String a (String "_" (String u (sub_caps t))).
Proof. intros a u t H H2. cbn [sub_caps]. rewrite H, H2. reflexivity. Qed.

(** C94: exactly which capitals get an underscore *)
Lemma respell_next : forall n c t b, String.length t <= n ->
  exists X, sub_words b (String c t) = String c X /\ slower (sub_caps (String c X)) = String (small c) (respell (Some c) t).
Proof.
  induction n as [|n IH]; intros c t b Hn.
  - destruct t; [|cbn in Hn; lia]. exists "". split.
    + cbn [sub_words]. destruct (b && is_lower c); reflexivity.
    + rewrite <- small_eq. reflexivity.
  - destruct t as [|u r]; [exists ""; split; [cbn [sub_words]; destruct (b && is_lower c); reflexivity | rewrite <- small_eq; reflexivity]|].
    cbn [String.length] in Hn. destruct (one_of_kinds u) as (Ku & Ku2 & _). destruct (one_of_kinds c) as (_ & Kc & Kd).
    destruct (b && is_lower c) eqn:Eb.
    + destruct (IH u r true ltac:(lia)) as (X & HX & HY).
      exists (String u X). split; [rewrite <- HX; change (sub_words b (String c (String u r))) with (if b && is_lower c then String c (sub_words true (String u r)) else match String u r with String u r => if is_upper u && starts is_lower r then String c (String "_" (String u (sub_words true r))) else String c (sub_words false (String u r)) | EmptyString => String c EmptyString end); rewrite Eb; reflexivity|].
      apply andb_prop in Eb. destruct Eb as [_ Hc]. cbn [respell]. rewrite Ku, Kc, Kd, Hc. cbn [orb]. rewrite andb_true_r.
      destruct (is_upper u) eqn:Eu.
      * rewrite sub_caps_cut by assumption. rewrite (sub_caps_upper _ _ Eu), slower_cons, small_eq in HY. injection HY as HY.
        rewrite !slower_cons, !small_eq, HY. reflexivity.
      * rewrite sub_caps_pass by exact Eu. rewrite slower_cons, HY, small_eq. reflexivity.
    + assert (Hs : sub_words b (String c (String u r)) = if is_upper u && starts is_lower r then String c (String "_" (String u (sub_words true r))) else String c (sub_words false (String u r))).
      { change (sub_words b (String c (String u r))) with (if b && is_lower c then String c (sub_words true (String u r)) else if is_upper u && starts is_lower r then String c (String "_" (String u (sub_words true r))) else String c (sub_words false (String u r))). rewrite Eb. reflexivity. }
      rewrite Hs. clear Hs. destruct (is_upper u && starts is_lower r) eqn:Es.
      * apply andb_prop in Es. destruct Es as [Eu Er]. destruct r as [|l r']; [discriminate Er|]. cbn [starts] in Er. cbn [String.length] in Hn.
        destruct (IH l r' true ltac:(lia)) as (X & HX & HY). rewrite HX. eexists. split; [reflexivity|].
        rewrite sub_caps_pass by reflexivity. rewrite sub_caps_under, (sub_caps_upper _ _ Eu), !slower_cons, !small_eq, HY.
        destruct (one_of_kinds l) as (Kl & Kl2 & _). cbn [respell]. rewrite Ku, Eu, Kl, Kl2, Er, (low_not_up l Er). rewrite !orb_true_r. reflexivity.
      * destruct (IH u r false ltac:(lia)) as (X & HX & HY). rewrite HX. eexists. split; [reflexivity|].
        assert (Hst : match r with String n0 _ => one_of small_letters n0 | _ => false end = starts is_lower r).
        { destruct r as [|l r']; [reflexivity|]. apply (one_of_kinds l). }
        cbn [respell]. rewrite Hst, Ku, Kc, Kd. destruct (is_upper u) eqn:Eu.
        -- cbn [andb] in Es. rewrite Es, orb_false_r. cbn [andb]. destruct (is_lower c || is_digit c) eqn:Ec.
           ++ rewrite (sub_caps_upper _ _ Eu), slower_cons, small_eq in HY. injection HY as HY.
              transitivity (slower (String c (String "_" (String u (sub_caps X))))); [cbn [sub_caps]; rewrite Ec, Eu; reflexivity|].
              rewrite !slower_cons, !small_eq, HY. reflexivity.
           ++ transitivity (slower (String c (sub_caps (String u X)))); [cbn [sub_caps]; rewrite Ec; reflexivity|].
              rewrite slower_cons, HY, small_eq. reflexivity.
        -- rewrite sub_caps_pass by exact Eu. rewrite slower_cons, HY, small_eq. reflexivity.
Qed.

Theorem C94_rule : forall s, camel_to_snake s = respell None s.
Proof.
  intros s. destruct s as [|c t]; [reflexivity|]. unfold camel_to_snake. destruct (respell_next _ c t false (le_n _)) as (X & -> & ->). reflexivity.
Qed.

(** ** Words *)
Definition lows (l : string) : Prop := forall a, In a (list_ascii_of_string l) -> is_lower a = true.

Lemma lows_cons : forall a l, lows (String a l) <-> is_lower a = true /\ lows l.
Proof.
  intros a l. unfold lows. cbn [list_ascii_of_string In]. split.
  - intros H. split; [apply H; left; reflexivity | intros b Hb; apply H; right; exact Hb].
  - intros [H1 H2] b [<- | Hb]; [exact H1 | exact (H2 b Hb)].
Qed.

Lemma word_shape : forall w, word w -> exists u l r, w = String u (String l r) /\ is_upper u = true /\ is_lower l = true /\ lows r.
Proof.
  intros w (u & l & r & -> & Hu & Hl). exists u, l, r. split; [reflexivity|]. split; [apply upper_In; exact Hu|].
  apply lows_cons. intros a Ha. apply lower_In. apply Hl. exact Ha.
Qed.

(** words written after each other, with or without an underscore in between *)
Inductive glued : list string -> string -> Prop :=
  | gl_nil : glued [] ""
  | gl_bare w ws t : glued ws t -> glued (w :: ws) (w ++ t)%string
  | gl_under w ws t : glued ws t -> glued (w :: ws) (String "_" (w ++ t))%string.

Lemma sub_words_copy : forall l t, lows l -> sub_words true (l ++ t)%string = (l ++ sub_words true t)%string.
Proof.
  induction l as [|a l IH]; intros t H; [reflexivity|]. apply lows_cons in H. destruct H as [Ha H].
  cbn [String.append sub_words]. rewrite Ha. cbn [andb]. rewrite IH by exact H. reflexivity.
Qed.

Lemma sub_words_head : forall b u l t, is_upper u = true -> is_lower l = true ->
  sub_words b (String u (String l t)) = String u (sub_words false (String l t)).
Proof.
  intros b u l t Hu Hl. cbn [sub_words]. destruct (char_kinds u Hu) as [Hlu _]. rewrite Hlu, andb_false_r, (low_not_up l Hl).
  cbn [andb]. reflexivity.
Qed.

Lemma sub_words_run_end : forall r a, lows (String a r) -> sub_words false (String a r) = String a r.
Proof.
  induction r as [|b r IH]; intros a H; [reflexivity|]. apply lows_cons in H. destruct H as [Ha H].
  transitivity (String a (sub_words false (String b r))).
  - pose proof H as H2. apply lows_cons in H2. destruct H2 as [Hb _]. cbn [sub_words]. rewrite (low_not_up b Hb). reflexivity.
  - rewrite IH by exact H. reflexivity.
Qed.

Lemma sub_words_run : forall r a u l t, lows (String a r) -> is_upper u = true -> is_lower l = true ->
  sub_words false (String a (r ++ String u (String l t)))%string = String a (r ++ String "_" (String u (sub_words true (String l t))))%string.
Proof.
  induction r as [|b r IH]; intros a u l t H Hu Hl; apply lows_cons in H; destruct H as [Ha H].
  - cbn [String.append]. cbn [sub_words starts andb]. rewrite Hu, Hl. reflexivity.
  - transitivity (String a (sub_words false (String b (r ++ String u (String l t))))).
    + pose proof H as H2. apply lows_cons in H2. destruct H2 as [Hb _]. cbn [String.append]. cbn [sub_words]. rewrite (low_not_up b Hb). reflexivity.
    + rewrite IH by assumption. reflexivity.
Qed.

Lemma concat_cons : forall w ws, String.concat "" (w :: ws) = (w ++ String.concat "" ws)%string.
Proof.
  intros w ws. destruct ws as [|w2 ws]; [|reflexivity]. cbn. induction w as [|a w IH]; [reflexivity|]. cbn. rewrite <- IH. reflexivity.
Qed.

Lemma append_nil : forall w, (w ++ "")%string = w.
Proof. induction w as [|a w IH]; [reflexivity|]. cbn. rewrite IH. reflexivity. Qed.

Lemma sub_words_glued : forall n ws, List.length ws <= n -> Forall word ws -> forall b,
  match ws with
  | [] => sub_words b (String.concat "" ws) = ""
  | w :: ws' => exists t, glued ws' t /\ sub_words b (String.concat "" ws) = (w ++ t)%string
  end.
Proof.
  induction n as [|n IH]; intros ws Hn Hw b; destruct ws as [|w ws]; try reflexivity; [cbn in Hn; lia|].
  rewrite concat_cons. inversion Hw as [|? ? Hw1 Hw2]; subst. destruct (word_shape w Hw1) as (u & l & r & -> & Hu & Hl & Hr).
  assert (Hlr : lows (String l r)) by (apply lows_cons; split; assumption).
  destruct ws as [|w2 ws].
  - exists "". split; [constructor|]. cbn [String.concat]. rewrite !append_nil. rewrite sub_words_head by assumption.
    rewrite sub_words_run_end by exact Hlr. reflexivity.
  - rewrite concat_cons. inversion Hw2 as [|? ? Hw3 Hw4]; subst. destruct (word_shape w2 Hw3) as (u2 & l2 & r2 & -> & Hu2 & Hl2 & Hr2).
    cbn [List.length] in Hn. assert (Hlen : List.length ws <= n) by lia. pose proof (IH ws Hlen Hw4 true) as IH'.
    assert (Hg : glued ws (sub_words true (String.concat "" ws))).
    { destruct ws as [|w3 ws3]; [rewrite IH'; constructor|]. destruct IH' as (t & Ht & ->). apply gl_bare. exact Ht. }
    exists (String "_" (String u2 (String l2 r2) ++ sub_words true (String.concat "" ws)))%string. split; [apply gl_under; exact Hg|].
    cbn [String.append]. rewrite sub_words_head by assumption. rewrite sub_words_run by assumption.
    change (String l2 (r2 ++ String.concat "" ws))%string with (String l2 r2 ++ String.concat "" ws)%string.
    rewrite sub_words_copy by (apply lows_cons; split; assumption). reflexivity.
Qed.

Definition joined (ws : list string) : string := fold_right (fun w acc => String "_" (w ++ acc))%string "" ws.

Lemma sub_caps_glued : forall ws t, glued ws t -> Forall word ws -> forall r a, lows (String a r) ->
  sub_caps (String a (r ++ t))%string = String a (r ++ joined ws)%string.
Proof.
  intros ws t H. induction H as [| w ws t H IH | w ws t H IH]; intros Hw.
  - induction r as [|b r IHr]; intros a Ha; apply lows_cons in Ha; destruct Ha as [Ha Hr]; [reflexivity|].
    pose proof Hr as Hb. apply lows_cons in Hb. destruct Hb as [Hb _]. cbn [String.append].
    rewrite sub_caps_pass by (apply low_not_up; exact Hb). rewrite IHr by exact Hr. reflexivity.
  - inversion Hw as [|? ? Hw1 Hw2]; subst. destruct (word_shape w Hw1) as (u & l & r0 & -> & Hu & Hl & Hr0).
    induction r as [|b r IHr]; intros a Ha; apply lows_cons in Ha; destruct Ha as [Ha Hr].
    + cbn [String.append]. rewrite sub_caps_cut by assumption. rewrite (IH Hw2) by (apply lows_cons; split; assumption). reflexivity.
    + pose proof Hr as Hb. apply lows_cons in Hb. destruct Hb as [Hb _].
      change (String a (String b r ++ String u (String l r0) ++ t))%string with (String a (String b (r ++ String u (String l r0) ++ t)))%string.
      rewrite sub_caps_pass by (apply low_not_up; exact Hb). rewrite IHr by exact Hr. reflexivity.
  - inversion Hw as [|? ? Hw1 Hw2]; subst. destruct (word_shape w Hw1) as (u & l & r0 & -> & Hu & Hl & Hr0).
    induction r as [|b r IHr]; intros a Ha; apply lows_cons in Ha; destruct Ha as [Ha Hr].
    + cbn [String.append]. rewrite sub_caps_pass by reflexivity. rewrite sub_caps_under, (sub_caps_upper _ _ Hu).
      rewrite (IH Hw2) by (apply lows_cons; split; assumption). reflexivity.
    + pose proof Hr as Hb. apply lows_cons in Hb. destruct Hb as [Hb _].
      change (String a (String b r ++ String "_" (String u (String l r0) ++ t)))%string with (String a (String b (r ++ String "_" (String u (String l r0) ++ t))))%string.
      rewrite sub_caps_pass by (apply low_not_up; exact Hb). rewrite IHr by exact Hr. reflexivity.
Qed.

Lemma slower_app : forall a b, slower (a ++ b)%string = (slower a ++ slower b)%string.
Proof. induction a as [|c a IH]; intros b; [reflexivity|]. cbn [String.append]. rewrite !slower_cons, IH. reflexivity. Qed.

Lemma slower_joined : forall ws, slower (joined ws) = joined (map slower ws).
Proof.
  induction ws as [|w ws IH]; [reflexivity|]. cbn [joined fold_right map]. rewrite slower_cons, slower_app.
  change (fold_right _ "" ws) with (joined ws). rewrite IH. reflexivity.
Qed.

Lemma concat_joined : forall ws w, String.concat "_" (w :: ws) = (w ++ joined ws)%string.
Proof.
  induction ws as [|w2 ws IH]; intros w; [cbn; rewrite append_nil; reflexivity|].
  change (String.concat "_" (w :: w2 :: ws)) with (w ++ "_" ++ String.concat "_" (w2 :: ws))%string. rewrite IH. reflexivity.
Qed.

(** C94: a name made of words is written as these words in lower case, joined by underscores *)
Theorem C94_words : forall ws, Forall word ws -> camel_to_snake (String.concat "" ws) = String.concat "_" (map smalls ws).
Proof.
  intros ws H. rewrite <- (map_ext _ _ smalls_eq). pose proof (sub_words_glued _ ws (le_n _) H false) as Hg. unfold camel_to_snake.
  destruct ws as [|w ws]; [reflexivity|]. destruct Hg as (t & Ht & ->).
  inversion H as [|? ? Hw Hws]; subst. destruct (word_shape w Hw) as (u & l & r & -> & Hu & Hl & Hr).
  cbn [map]. rewrite concat_joined. rewrite <- slower_joined, <- slower_app. f_equal. cbn [String.append].
  rewrite (sub_caps_upper _ _ Hu). rewrite (sub_caps_glued ws t Ht Hws) by (apply lows_cons; split; assumption). reflexivity.
Qed.

Lemma lower_under : forall a, is_upper a = true \/ is_lower a = true -> to_lower a <> "_"%char.
Proof. intros a. destruct a as [[] [] [] [] [] [] [] []]; vm_compute; intros [H | H]; try discriminate H; discriminate. Qed.

Definition plain (s : string) : Prop := ~ In "_"%char (list_ascii_of_string s).

Lemma plain_joined : forall x y xs ys, plain x -> plain y -> (x ++ joined xs)%string = (y ++ joined ys)%string -> x = y /\ joined xs = joined ys.
Proof.
  unfold plain. induction x as [|a x IH]; intros y xs ys Hx Hy H; destruct y as [|b y]; cbn [String.append list_ascii_of_string In] in *.
  - auto.
  - exfalso. destruct xs as [|z xs]; cbn in H; [discriminate H|]. injection H as H _. apply Hy. left. symmetry. exact H.
  - exfalso. destruct ys as [|z ys]; cbn in H; [discriminate H|]. injection H as H _. apply Hx. left. exact H.
  - injection H as -> H. destruct (IH y xs ys) as [-> Hj]; [tauto | tauto | exact H |]. auto.
Qed.

Lemma joined_inj : forall xs ys, Forall plain xs -> Forall plain ys -> joined xs = joined ys -> xs = ys.
Proof.
  induction xs as [|x xs IH]; intros ys Hx Hy H; destruct ys as [|y ys]; try discriminate H; [reflexivity|].
  inversion Hx; subst. inversion Hy; subst. cbn [joined fold_right] in H. injection H as H.
  apply plain_joined in H; [|assumption|assumption]. destruct H as [-> H]. f_equal. apply IH; assumption.
Qed.

Lemma slower_lows : forall r, lows r -> slower r = r.
Proof.
  induction r as [|a r IH]; intros H; [reflexivity|]. apply lows_cons in H. destruct H as [Ha H]. rewrite slower_cons, IH by exact H.
  rewrite to_lower_id by (apply low_not_up; exact Ha). reflexivity.
Qed.

Lemma to_lower_inj : forall a b, is_upper a = true -> is_upper b = true -> to_lower a = to_lower b -> a = b.
Proof.
  intros a b Ha Hb. apply upper_In in Ha. apply upper_In in Hb. cbn [In list_ascii_of_string capitals] in Ha, Hb.
  repeat (destruct Ha as [<- | Ha]; [repeat (destruct Hb as [<- | Hb]; [vm_compute; intro E; first [reflexivity | discriminate E]|]); destruct Hb|]). destruct Ha.
Qed.

Lemma word_plain : forall w, word w -> plain (slower w).
Proof.
  intros w H. destruct (word_shape w H) as (u & l & r & -> & Hu & Hl & Hr). rewrite slower_cons.
  assert (Hlr : lows (String l r)) by (apply lows_cons; split; assumption). rewrite (slower_lows _ Hlr). unfold plain.
  intros [Hin | Hin]; [exact (lower_under u (or_introl Hu) Hin)|]. apply Hlr in Hin. discriminate Hin.
Qed.

Lemma word_inj : forall v w, word v -> word w -> slower v = slower w -> v = w.
Proof.
  intros v w Hv Hw H. destruct (word_shape v Hv) as (u & l & r & -> & Hu & Hl & Hr). destruct (word_shape w Hw) as (u' & l' & r' & -> & Hu' & Hl' & Hr').
  rewrite !(slower_cons _ (String _ _)) in H. rewrite !slower_lows in H by (apply lows_cons; split; assumption).
  injection H as H1 H2 H3. subst. f_equal. apply to_lower_inj; assumption.
Qed.

Lemma words_inj : forall vs ws, Forall word vs -> Forall word ws -> map slower vs = map slower ws -> vs = ws.
Proof.
  induction vs as [|v vs IH]; intros ws Hv Hw H; destruct ws as [|w ws]; try discriminate H; [reflexivity|].
  inversion Hv; subst. inversion Hw; subst. cbn [map] in H. injection H as E1 E2. f_equal; [apply word_inj; assumption | apply IH; assumption].
Qed.

(** C94: two different names made of words have different type strings *)
Theorem C94_apart_partial : forall vs ws, Forall word vs -> Forall word ws ->
  camel_to_snake (String.concat "" vs) = camel_to_snake (String.concat "" ws) -> String.concat "" vs = String.concat "" ws.
Proof.
  intros vs ws Hv Hw H. rewrite (C94_words vs Hv), (C94_words ws Hw), <- !(map_ext _ _ smalls_eq) in H. f_equal. apply words_inj; [assumption | assumption |].
  assert (Hp : forall l, Forall word l -> Forall plain (map slower l)).
  { intros l Hl. apply Forall_map. eapply Forall_impl; [|exact Hl]. exact word_plain. }
  assert (He : forall w l, Forall word (w :: l) -> "" <> String.concat "_" (map slower (w :: l))).
  { intros w l Hl. inversion Hl as [|? ? Hl1 _]; subst. destruct (word_shape w Hl1) as (u & c & r & -> & _).
    cbn [map]. rewrite concat_joined, slower_cons. discriminate. }
  destruct vs as [|v vs]; destruct ws as [|w ws].
  - reflexivity.
  - destruct (He w ws Hw H).
  - destruct (He v vs Hv (eq_sym H)).
  - apply Hp in Hv. apply Hp in Hw. cbn [map] in *. rewrite !concat_joined in H. inversion Hv; subst. inversion Hw; subst.
    apply plain_joined in H; [|assumption|assumption]. destruct H as [-> H]. f_equal. apply joined_inj; assumption.
Qed.

(** C94: but not every two names: ZIPCode and ZipCode have the same type string *)
Theorem C94_apart_refuted : exists a b, a <> b /\ camel_to_snake a = camel_to_snake b.
Proof. exists "ZIPCode", "ZipCode". split; [discriminate | reflexivity]. Qed.

(** ** Lookup *)
Fixpoint desc_ind_size (c : vclass) : nat := S (match c with VClass _ _ subs => list_sum (map desc_ind_size subs) end).

Lemma in_sum : forall d l, In d l -> desc_ind_size d <= list_sum (map desc_ind_size l).
Proof.
  intros d l. induction l as [|x l IH]; intros H; [destruct H|]. cbn [map]. change (list_sum (desc_ind_size x :: map desc_ind_size l)) with (desc_ind_size x + list_sum (map desc_ind_size l)).
  destruct H as [-> | H]; [lia|]. specialize (IH H). lia.
Qed.

Lemma descendents_derives : forall n root, desc_ind_size root <= n -> forall c, In c (find_descendents root) <-> derives root c.
Proof.
  induction n as [|n IH]; intros [i nm subs] Hn c; [cbn in Hn; lia|].
  change (desc_ind_size (VClass i nm subs)) with (S (list_sum (map desc_ind_size subs))) in Hn.
  change (find_descendents (VClass i nm subs)) with (VClass i nm subs :: flat_map find_descendents subs). split.
  - intros [<- | H]; [constructor|]. apply in_flat_map in H. destruct H as (d & Hd & H). apply der_sub with d; [exact Hd|].
    apply IH in H; [exact H|]. pose proof (in_sum d subs Hd). lia.
  - intros H. inversion H as [|? ? ? d ? Hd Hdc]; subst; [left; reflexivity|]. right. apply in_flat_map. exists d. split; [exact Hd|].
    apply IH; [|exact Hdc]. pose proof (in_sum d subs Hd). lia.
Qed.

Definition listed (root : vclass) (text : nat) : list vclass :=
  filter (fun c => negb (Nat.eqb (v_id c) (v_id root)) && negb (Nat.eqb (v_id c) text)) (find_descendents root).

Lemma listed_usable : forall root text c, In c (listed root (v_id text)) <-> usable root text c.
Proof.
  intros root text c. unfold listed, usable. rewrite filter_In, (descendents_derives _ root (le_n _) c), andb_true_iff, !negb_true_iff, !Nat.eqb_neq. tauto.
Qed.

Lemma fold_get : forall l d s,
  dget String.eqb s (fold_left (fun d c => dset String.eqb (type_string c) c d) l d) =
  match find (fun c => String.eqb s (type_string c)) (rev l) with Some c => Some c | None => dget String.eqb s d end.
Proof.
  induction l as [|x l IH]; intros d s; [reflexivity|]. cbn [fold_left rev]. rewrite IH.
  assert (Hf : forall (f : vclass -> bool) a b, find f (a ++ b) = match find f a with Some c => Some c | None => find f b end).
  { intros f a b. induction a as [|y a IHa]; [reflexivity|]. cbn [find app]. destruct (f y); [reflexivity | exact IHa]. }
  rewrite Hf. destruct (find _ (rev l)) as [c|]; [reflexivity|]. cbn [find].
  destruct (String.eqb_spec s (type_string x)) as [-> | Hne].
  - apply (dget_dset_same String.eqb String.eqb_spec).
  - apply (dget_dset_other String.eqb String.eqb_spec). congruence.
Qed.

Lemma types_get : forall root text s, dget String.eqb s (find_variable_types root (v_id text)) = find (fun c => String.eqb s (type_string c)) (rev (listed root (v_id text))).
Proof. intros root text s. unfold find_variable_types. rewrite fold_get. fold (listed root (v_id text)). destruct (find _ _); reflexivity. Qed.

Lemma get_sound : forall root text s c, dget String.eqb s (find_variable_types root (v_id text)) = Some c -> usable root text c /\ type_string c = s.
Proof.
  intros root text s c H. rewrite types_get in H. apply find_some in H. destruct H as [Hin He]. apply in_rev, listed_usable in Hin.
  apply String.eqb_eq in He. auto.
Qed.

Lemma get_none : forall root text s, dget String.eqb s (find_variable_types root (v_id text)) = None <-> (forall c, usable root text c -> type_string c <> s).
Proof.
  intros root text s. rewrite types_get. split.
  - intros H c Hc He. apply listed_usable, in_rev in Hc. pose proof (find_none _ _ H c Hc) as Hn. cbn beta in Hn. rewrite He, String.eqb_refl in Hn. discriminate Hn.
  - intros H. destruct (find _ _) as [c|] eqn:E; [|reflexivity]. apply find_some in E. destruct E as [Hin He]. apply in_rev, listed_usable in Hin.
    apply String.eqb_eq in He. symmetry in He. destruct (H c Hin He).
Qed.

Lemma get_unique : forall root text c, usable root text c -> (forall d, usable root text d -> type_string d = type_string c -> d = c) ->
  dget String.eqb (type_string c) (find_variable_types root (v_id text)) = Some c.
Proof.
  intros root text c Hc Hu. destruct (dget String.eqb (type_string c) (find_variable_types root (v_id text))) as [d|] eqn:E.
  - apply get_sound in E. destruct E as [Hd He]. rewrite (Hu d Hd He). reflexivity.
  - pose proof (proj1 (get_none root text (type_string c)) E c Hc) as Hn. destruct (Hn eq_refl).
Qed.

(** C94: a saved variable comes back with its own class, when no other type has that type string *)
Theorem C94_read_back_partial : forall root text c, usable root text c ->
  (forall d, usable root text d -> type_string d = type_string c -> d = c) ->
  class_read root text (type_string c) = Ok c.
Proof. intros root text c Hc Hu. unfold class_read. rewrite get_unique by assumption. reflexivity. Qed.

(** C94: whatever class is read has the type string asked for; or no type has it, and the class is one whose type string is unknown *)
Theorem C94_read_sound : forall root text s c, class_read root text s = Ok c ->
  usable root text c /\ (type_string c = s \/ (type_string c = "unknown" /\ forall d, usable root text d -> type_string d <> s)).
Proof.
  intros root text s c H. unfold class_read in H. destruct (dget String.eqb s _) as [d|] eqn:E.
  - injection H as ->. apply (get_sound root text) in E. tauto.
  - pose proof (proj1 (get_none root text s) E) as E'. destruct (dget String.eqb "unknown" _) as [d|] eqn:E2; [|discriminate H]. injection H as ->. apply (get_sound root text) in E2. tauto.
Qed.

(** C94: a type given as text to an entity is found without a warning exactly when some type, or Text, has it as its type string *)
Theorem C94_named : forall root text s,
  (type_string text = s -> class_for root text s = Ok (text, false)) /\
  (forall c, type_string text <> s -> class_for root text s = Ok (c, false) -> usable root text c /\ type_string c = s) /\
  (forall c, usable root text c -> type_string c = s -> type_string text <> s -> exists d, class_for root text s = Ok (d, false)) /\
  (forall c, class_for root text s = Ok (c, true) -> type_string c = "unknown" /\ type_string text <> s /\ forall d, usable root text d -> type_string d <> s).
Proof.
  intros root text s. unfold class_for.
  assert (Ho : type_string text <> s -> dget String.eqb s (dset String.eqb (type_string text) text (find_variable_types root (v_id text))) = dget String.eqb s (find_variable_types root (v_id text))).
  { intros Hne. apply (dget_dset_other String.eqb String.eqb_spec). congruence. }
  assert (Hs : type_string text = s -> dget String.eqb s (dset String.eqb (type_string text) text (find_variable_types root (v_id text))) = Some text).
  { intros <-. apply (dget_dset_same String.eqb String.eqb_spec). }
  split; [|split; [|split]].
  - intros H. rewrite (Hs H). reflexivity.
  - intros c Hne. rewrite (Ho Hne). destruct (dget String.eqb s (find_variable_types _ _)) as [d|] eqn:E.
    + intros [= ->]. exact (get_sound root text s c E).
    + destruct (dget String.eqb "unknown" _); discriminate.
  - intros c Hc He Hne. rewrite (Ho Hne). destruct (dget String.eqb s (find_variable_types _ _)) as [d|] eqn:E; [exists d; reflexivity|].
    destruct (proj1 (get_none root text s) E c Hc He).
  - intros c. destruct (String.eqb_spec (type_string text) s) as [He | Hne]; [rewrite (Hs He); discriminate|]. rewrite (Ho Hne).
    destruct (dget String.eqb s (find_variable_types _ _)) as [d|] eqn:E; [discriminate|].
    pose proof (proj1 (get_none root text s) E) as E'.
    destruct (dget String.eqb "unknown" _) as [d|] eqn:E2; [|discriminate]. intros [= ->]. split; [|split; [exact Hne | exact E']].
    destruct (String.eqb_spec "unknown" (type_string text)) as [Hu | Hu].
    + rewrite Hu in E2. rewrite (dget_dset_same String.eqb String.eqb_spec) in E2. injection E2 as <-. symmetry. exact Hu.
    + rewrite (dget_dset_other String.eqb String.eqb_spec) in E2 by exact Hu. apply (get_sound root text) in E2. apply E2.
Qed.

Lemma types_NoDup : forall root text, NoDup (map fst (find_variable_types root text)).
Proof.
  intros root text. unfold find_variable_types. generalize (filter (fun c => negb (Nat.eqb (v_id c) (v_id root)) && negb (Nat.eqb (v_id c) text)) (find_descendents root)).
  intros l. assert (H : NoDup (map fst (@nil (string * vclass)))) by constructor. revert H. generalize (@nil (string * vclass)).
  induction l as [|c l IH]; intros d H; [exact H|]. cbn [fold_left]. apply IH. apply (dset_NoDup String.eqb String.eqb_spec). exact H.
Qed.

(** C94: the table of types has one row for each type string, with the name of a type that has it *)
Theorem C94_listed : forall root text,
  NoDup (map snd (list_variable_types root (v_id text))) /\
  (forall n s, In (n, s) (list_variable_types root (v_id text)) -> exists c, usable root text c /\ v_name c = n /\ type_string c = s) /\
  (forall c, usable root text c -> exists n, In (n, type_string c) (list_variable_types root (v_id text))) /\
  (forall c, usable root text c -> (forall d, usable root text d -> type_string d = type_string c -> d = c) ->
     In (v_name c, type_string c) (list_variable_types root (v_id text))).
Proof.
  intros root text. pose proof (types_NoDup root (v_id text)) as Hnd. unfold list_variable_types.
  assert (Hin : forall s c, dget String.eqb s (find_variable_types root (v_id text)) = Some c ->
    In (v_name c, s) (map (fun kv => (v_name (snd kv), fst kv)) (find_variable_types root (v_id text)))).
  { intros s c H. apply (dget_In String.eqb String.eqb_spec) in H. apply in_map_iff. exists (s, c). auto. }
  split; [|split; [|split]].
  - rewrite map_map. exact Hnd.
  - intros n s H. apply in_map_iff in H. destruct H as ([k c] & He & H). injection He as <- <-.
    apply (dget_NoDup_In String.eqb String.eqb_spec) in H; [|exact Hnd]. apply (get_sound root text) in H. exists c. tauto.
  - intros c Hc. destruct (dget String.eqb (type_string c) (find_variable_types root (v_id text))) as [d|] eqn:E; [exists (v_name d); exact (Hin _ _ E)|].
    destruct (proj1 (get_none root text (type_string c)) E c Hc eq_refl).
  - intros c Hc Hu. apply Hin. apply get_unique; assumption.
Qed.

(** ** The types of the library, in part, and a user's *)
Definition w_text := VClass 4 "Text" [].
Definition w_unknown := VClass 1 "Unknown" [].
Definition w_zip := VClass 3 "ZIPCode" [].
Definition w_variable (own : list vclass) := VClass 0 "Variable" ([w_unknown; VClass 2 "Discrete" [w_zip]; VClass 5 "NaturalLanguage" [w_text]] ++ own).

(** C94: a saved Text variable does not come back as Text *)
Theorem C94_text_refuted : derives (w_variable []) w_text /\ class_for (w_variable []) w_text "text" = Ok (w_text, false) /\
  class_read (w_variable []) w_text (type_string w_text) = Ok w_unknown.
Proof.
  split; [|split; reflexivity]. apply der_sub with (VClass 5 "NaturalLanguage" [w_text]); [cbn; tauto|].
  apply der_sub with w_text; [left; reflexivity | constructor].
Qed.

(** C94: a saved variable of the library's ZIPCode comes back as a user's ZipCode, once this class is defined *)
Theorem C94_taken_refuted : let own := VClass 9 "ZipCode" [] in
  class_read (w_variable []) w_text (type_string w_zip) = Ok w_zip /\
  usable (w_variable [own]) w_text w_zip /\ class_read (w_variable [own]) w_text (type_string w_zip) = Ok own.
Proof.
  intros own. split; [reflexivity|]. split; [|reflexivity]. split; [|split; cbn; discriminate].
  apply der_sub with (VClass 2 "Discrete" [w_zip]); [cbn; tauto|]. apply der_sub with w_zip; [left; reflexivity | constructor].
Qed.

Example C94_nonvacuous : list_variable_types (w_variable [VClass 9 "ZipCode" []]) 4 =
    [("Unknown", "unknown"); ("Discrete", "discrete"); ("ZipCode", "zip_code"); ("NaturalLanguage", "natural_language")] /\
  class_read (w_variable [VClass 9 "PhoneArea2Code" []]) w_text "phone_area2_code" = Ok (VClass 9 "PhoneArea2Code" []) /\
  (forall d, usable (w_variable []) w_text d -> type_string d = type_string w_zip -> d = w_zip) /\
  Forall word ["Natural"; "Language"] /\ camel_to_snake (String.concat "" ["Natural"; "Language"]) = "natural_language" /\
  camel_to_snake "IPAddress" = "ip_address" /\ camel_to_snake "DatetimeTimeIndex" = "datetime_time_index" /\ camel_to_snake "LatLong" = "lat_long".
Proof.
  split; [reflexivity|]. split; [reflexivity|]. split; [|split; [|repeat split]].
  - intros d Hd. apply listed_usable in Hd. cbn in Hd. repeat (destruct Hd as [<- | Hd]; [vm_compute; intro E; first [reflexivity | discriminate E]|]). destruct Hd.
  - repeat constructor.
    + exists "N"%char, "a"%char, "tural". split; [reflexivity|]. split; [cbn; tauto|]. cbn. intros a Ha. repeat (destruct Ha as [<- | Ha]; [tauto|]). destruct Ha.
    + exists "L"%char, "a"%char, "nguage". split; [reflexivity|]. split; [cbn; tauto|]. cbn. intros a Ha. repeat (destruct Ha as [<- | Ha]; [tauto|]). destruct Ha.
Qed.

Print Assumptions C94_spelling.
Print Assumptions C94_small.
Print Assumptions C94_rule.
Print Assumptions C94_words.
Print Assumptions C94_apart_partial.
Print Assumptions C94_apart_refuted.
Print Assumptions C94_read_back_partial.
Print Assumptions C94_read_sound.
Print Assumptions C94_named.
Print Assumptions C94_listed.
Print Assumptions C94_text_refuted.
Print Assumptions C94_taken_refuted.
