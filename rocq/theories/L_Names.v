(** Lemmas for C50: names of ordinary features can be read back. *)
From Verif Require Import Base BaseFacts M_Schema S_Schema M_Feature M_Names S_Names L_FeatureSet.
Local Open Scope string_scope.

Lemma sapp_assoc a b c : (a ++ b) ++ c = a ++ b ++ c.
Proof. induction a as [|x a IH]; [reflexivity|]. cbn [append]. rewrite IH. reflexivity. Qed.
Lemma sapp_nil a : a ++ "" = a.
Proof. induction a as [|x a IH]; [reflexivity|]. cbn [append]. rewrite IH. reflexivity. Qed.

(** [k] is empty or starts with a character satisfying [bad] *)
Definition starts (bad : ascii -> bool) (k : string) : Prop := match k with EmptyString => True | String c _ => bad c = true end.

Lemma split_at bad a b k k' : free_of bad a = true -> free_of bad b = true -> starts bad k -> starts bad k' -> a ++ k = b ++ k' -> a = b /\ k = k'.
Proof.
  revert b. induction a as [|x a IH]; intros b Ha Hb Hk Hk' E.
  - destruct b as [|y b]; [split; [reflexivity | exact E]|]. cbn [append] in E. subst k. cbn [starts] in Hk. cbn [free_of] in Hb. rewrite Hk in Hb. discriminate.
  - destruct b as [|y b]; cbn [append] in E.
    + subst k'. cbn [starts] in Hk'. cbn [free_of] in Ha. rewrite Hk' in Ha. discriminate.
    + injection E as -> E. cbn [free_of] in Ha, Hb. apply andb_prop in Ha as [_ Ha], Hb as [_ Hb]. destruct (IH b Ha Hb Hk Hk' E) as [-> ->]. split; reflexivity.
Qed.
Lemma free_weaken (b1 b2 : ascii -> bool) s : (forall c, b2 c = true -> b1 c = true) -> free_of b1 s = true -> free_of b2 s = true.
Proof.
  intros H. induction s as [|c s IH]; [reflexivity|]. cbn [free_of]. intros E. apply andb_prop in E as [E1 E2]. rewrite IH by exact E2. destruct (b2 c) eqn:Eb; [rewrite (H c Eb) in E1; discriminate | reflexivity].
Qed.
Lemma word_free s : word s -> free_of special s = true.
Proof. intros (_ & H & _). revert H. apply free_weaken. intros c ->. reflexivity. Qed.
Lemma word_no_eq s : word s -> free_of (Ascii.eqb "=") s = true.
Proof. intros (_ & H & _). revert H. apply free_weaken. intros c E. apply Ascii.eqb_eq in E. subst c. reflexivity. Qed.

(** what follows a whole name *)
Definition term (k : string) : Prop :=
  match k with
  | EmptyString => True
  | String c k' => c = ","%char \/ c = ")"%char \/ (c = " "%char /\ match k' with String c' _ => c' <> "b"%char | EmptyString => False end)
  end.
Lemma term_starts k : term k -> starts special k.
Proof. destruct k as [|c k]; [trivial|]. cbn. intros [->|[->|[-> _]]]; reflexivity. Qed.
(** what follows a condition *)
Definition closes (k : string) : Prop := match k with String c _ => c = ","%char \/ c = ")"%char | EmptyString => False end.
Lemma closes_term k : closes k -> term k.
Proof. destruct k as [|c k]; [intros []|]. cbn. tauto. Qed.

(** a list with a comma before each element *)
Fixpoint commas (l : list string) (k : string) : string :=
  match l with [] => k | x :: l' => ", " ++ x ++ commas l' k end.
Lemma concat_commas x l k : String.concat ", " (x :: l) ++ k = x ++ commas l k.
Proof.
  revert x. induction l as [|y l IH]; intros x; [reflexivity|]. change (String.concat ", " (x :: y :: l)) with (x ++ ", " ++ String.concat ", " (y :: l)).
  rewrite !sapp_assoc, IH. reflexivity.
Qed.
Lemma args_commas args k : args_string args ++ k = commas args k.
Proof. destruct args as [|a args]; [reflexivity|]. unfold args_string. rewrite sapp_assoc, concat_commas. reflexivity. Qed.
Lemma call_commas n args b bs k : call_name n args (b :: bs) ++ k = n ++ "(" ++ b ++ commas bs (commas args (")" ++ k)).
Proof. unfold call_name. rewrite !sapp_assoc. rewrite concat_commas, args_commas. reflexivity. Qed.
Lemma agg_commas n args b bs path parent wh prev k :
  call_name_agg n args (b :: bs) path parent wh prev ++ k = n ++ "(" ++ path ++ "." ++ b ++ commas bs (wh ++ prev ++ commas args (")" ++ k)).
Proof. unfold call_name_agg. rewrite !sapp_assoc. rewrite concat_commas, args_commas. reflexivity. Qed.
Lemma count_commas bs path parent wh prev k : count_name bs path parent wh prev ++ k = "COUNT" ++ "(" ++ path ++ wh ++ prev ++ ")" ++ k.
Proof. unfold count_name. rewrite !sapp_assoc. reflexivity. Qed.

Lemma args_closes args k : closes (commas args (")" ++ k)).
Proof. destruct args as [|a args]; cbn; auto. Qed.

(** the first word of a text that follows a comma *)
Definition headed (P : string -> Prop) (s : string) : Prop := exists a t, s = a ++ t /\ free_of special a = true /\ starts special t /\ P a.
Lemma headed_apart P Q s : headed P s -> headed Q s -> (forall a, P a -> Q a -> False) -> False.
Proof.
  intros (a & t & -> & Ha & Ht & Pa) (b & u & E & Hb & Hu & Qb) H. destruct (split_at special a b t u Ha Hb Ht Hu E) as [-> _]. exact (H b Pa Qb).
Qed.

(** arguments *)
Lemma args_decode l1 : forall l2 k1 k2, Forall argument l1 -> Forall argument l2 ->
  commas l1 (")" ++ k1) = commas l2 (")" ++ k2) -> l1 = l2 /\ k1 = k2.
Proof.
  induction l1 as [|a l1 IH]; intros [|b l2] k1 k2 H1 H2 E.
  - cbn in E. injection E as ->. split; reflexivity.
  - cbn in E. discriminate.
  - cbn in E. discriminate.
  - cbn [commas append] in E. injection E as E. inversion H1 as [|a' l' [Ha _] H1']; inversion H2 as [|b' l'' [Hb _] H2']; subst.
    destruct (split_at special a b _ _ Ha Hb (term_starts _ (closes_term _ (args_closes l1 k1))) (term_starts _ (closes_term _ (args_closes l2 k2))) E) as [-> E'].
    destruct (IH l2 k1 k2 H1' H2' E') as [-> ->]. split; reflexivity.
Qed.

Section Decode.
  Variables (rels : list relationship) (style_of : prim -> style -> Prop) (index_of : string -> string) (delta : tdelta -> Prop).
  Hypothesis Hst : styled style_of.
  Hypothesis Hps : plain_schema rels.
  Hypothesis Hdel : deltas delta.
  Let ord := ordinary rels style_of index_of delta.
  Notation nm := (fname rels).

  Lemma fold_ord e bs : fold_right (fun b acc => ord e b /\ acc) True bs <-> Forall (ord e) bs.
  Proof. induction bs as [|b bs IH]; cbn [fold_right]; [split; [constructor | trivial]|]. rewrite IH. split; [intros [H1 H2]; constructor; assumption | intros H; inversion H; subst; split; assumption]. Qed.

  Lemma ord_entity e f : ord e f -> fentity f = e.
  Proof.
    revert e. induction f as [e' v nm|r b nm IH|p bs path u wh prev nm IHb IHw|p bs nm IHb|p bs g nm IHb IHg|b n nm IH] using list_feat_ind; intros e; destruct nm; cbn [ord ordinary fentity]; try tauto.
    - intros (Hp & Hc & _). destruct path as [|r path]; [congruence|]. inversion Hc; subst. reflexivity.
    - intros (_ & Hne & H). destruct bs as [|b bs]; [congruence|]. cbn [fold_right] in H. inversion IHb; subst. apply H2, H.
    - intros (_ & Hne & H & _). destruct bs as [|b bs]; [congruence|]. cbn [fold_right] in H. inversion IHb; subst. apply H2, H.
  Qed.

  (** ** the text of each kind of feature *)
  Lemma nm_ident e v : nm (FIdent e v None) = v.
  Proof. reflexivity. Qed.
  Lemma nm_direct r b : nm (FDirect r b None) = parent_name rels r ++ "." ++ nm b.
  Proof. reflexivity. Qed.
  Lemma nm_trans p bs : nm (FTrans p bs None) = p_gen p (map nm bs).
  Proof. reflexivity. Qed.
  Lemma nm_group p bs g : nm (FGroup p bs g None) = p_gen p (map nm bs) ++ " by " ++ nm g.
  Proof. reflexivity. Qed.
  Definition where_text (wh : option feat) : string := match wh with Some w => " WHERE " ++ nm w | None => "" end.
  Lemma nm_agg p bs path u wh prev : nm (FAgg p bs path u wh prev None) =
    p_gen_agg p (map nm bs) (fpath_name rels (FAgg p bs path u wh prev None)) (fentity (FAgg p bs path u wh prev None)) (where_text wh) (prev_str prev).
  Proof. reflexivity. Qed.

  Definition is_char (l : list ascii) (k : string) : Prop := match k with String c _ => In c l | EmptyString => False end.

  Lemma is_char_starts l t k : forallb special l = true -> is_char l t -> starts special (t ++ k).
  Proof. intros Hl. destruct t as [|c t]; [intros []|]. cbn. rewrite forallb_forall in Hl. apply Hl. Qed.
  Lemma parent_text r : exists t, parent_name rels r = r_pe r ++ t /\ (t = "" /\ rel_uniqueb rels r = true \/ t = "[" ++ r_cv r ++ "]" /\ rel_uniqueb rels r = false).
  Proof. unfold parent_name, bracket. destruct (rel_uniqueb rels r); [exists ""; rewrite sapp_nil | exists ("[" ++ r_cv r ++ "]")]; auto. Qed.
  Lemma child_text r : exists t, child_name rels r = r_ce r ++ t /\ (t = "" /\ rel_uniqueb rels r = true \/ t = "[" ++ r_cv r ++ "]" /\ rel_uniqueb rels r = false).
  Proof. unfold child_name, bracket. destruct (rel_uniqueb rels r); [exists ""; rewrite sapp_nil | exists ("[" ++ r_cv r ++ "]")]; auto. Qed.

  (** the first word of a name and what can follow it *)
  Lemma head e f : ord e f -> exists a t, nm f = a ++ t /\ word a /\
    (t = "" \/ is_char ["("%char] t \/ exists r b, f = FDirect r b None /\ In r rels /\ r_ce r = e /\ a = r_pe r /\ is_char ["."; "["]%char t).
  Proof.
    destruct f as [e' v nm|r b nm|p bs path u wh prev nm|p bs nm|p bs g nm|b n nm]; destruct nm; cbn [ord ordinary]; try tauto.
    - intros [_ Hv]. exists v, "". rewrite nm_ident, sapp_nil. auto.
    - intros (Hr & Hc & _). rewrite nm_direct. destruct (parent_text r) as (t & -> & Ht). rewrite !sapp_assoc. exists (r_pe r), (t ++ "." ++ nm b).
      split; [reflexivity|]. split; [apply (ps_words _ Hps r Hr)|]. right; right. exists r, b. split; [reflexivity|]. split; [exact Hr|]. split; [exact Hc|]. split; [reflexivity|].
      destruct Ht as [[-> _]|[-> _]]; cbn; auto.
    - intros (_ & _ & _ & [((n & args & Hs) & Hne & _)|[Hs _]] & _); rewrite nm_agg.
      + destruct (st_agg _ Hst p n args Hs) as (Hg & Hw & _). rewrite Hg. unfold call_name_agg. exists n. eexists. split; [reflexivity|]. split; [exact Hw|]. right; left. left. reflexivity.
      + rewrite (st_count _ Hst p Hs). unfold count_name. exists "COUNT". eexists. split; [reflexivity|]. split; [|right; left; left; reflexivity].
        split; [discriminate|]. split; [reflexivity | discriminate].
    - intros ((n & args & Hs) & _). rewrite nm_trans. destruct (st_call _ Hst p n args Hs) as (Hg & Hw & _). rewrite Hg. unfold call_name. exists n. eexists. split; [reflexivity|]. split; [exact Hw|]. right; left. left. reflexivity.
    - intros ((n & args & Hs) & _). rewrite nm_group. destruct (st_call _ Hst p n args Hs) as (Hg & Hw & _). rewrite Hg. unfold call_name. rewrite !sapp_assoc. exists n. eexists. split; [reflexivity|]. split; [exact Hw|]. right; left. left. reflexivity.
  Qed.
  Lemma head_word e f k : ord e f -> starts special k -> headed word (nm f ++ k).
  Proof.
    intros Hf Hk. destruct (head e f Hf) as (a & t & -> & Ha & Ht). rewrite sapp_assoc. exists a, (t ++ k). split; [reflexivity|]. split; [apply word_free; exact Ha|]. split; [|exact Ha].
    destruct Ht as [->|[Ht|(r & b & _ & _ & _ & _ & Ht)]]; [exact Hk | apply (is_char_starts ["("%char]); [reflexivity | exact Ht] | apply (is_char_starts ["."; "["]%char); [reflexivity | exact Ht]].
  Qed.

  (** ** relationships *)
  Lemma uniqueb_same r r' : r_ce r = r_ce r' -> r_pe r = r_pe r' -> rel_uniqueb rels r = rel_uniqueb rels r'.
  Proof. unfold rel_uniqueb. intros -> ->. reflexivity. Qed.
  Lemma unique_same r r' : In r rels -> In r' rels -> r_ce r = r_ce r' -> r_pe r = r_pe r' -> rel_uniqueb rels r = true -> r = r'.
  Proof.
    intros Hr Hr' Ec Ep H. unfold rel_uniqueb in H. apply Nat.eqb_eq in H.
    set (l := filter _ _) in H. assert (In r l) as H1. { apply filter_In. split; [apply filter_In; split; [exact Hr | apply String.eqb_refl] | apply String.eqb_refl]. }
    assert (In r' l) as H2. { apply filter_In. split; [apply filter_In; split; [exact Hr' | rewrite Ec; apply String.eqb_refl] | rewrite Ep; apply String.eqb_refl]. }
    destruct l as [|x [|y l]]; try discriminate. destruct H1 as [<-|[]], H2 as [<-|[]]. reflexivity.
  Qed.
  Definition after_segment (k : string) : Prop := is_char ["."; " "; ","; ")"]%char k.
  Lemma segment_rest r r' t t' k k' : In r rels -> In r' rels -> r_ce r = r_ce r' -> r_pe r = r_pe r' ->
    (t = "" /\ rel_uniqueb rels r = true \/ t = "[" ++ r_cv r ++ "]" /\ rel_uniqueb rels r = false) ->
    (t' = "" /\ rel_uniqueb rels r' = true \/ t' = "[" ++ r_cv r' ++ "]" /\ rel_uniqueb rels r' = false) ->
    t ++ k = t' ++ k' -> r = r' /\ k = k'.
  Proof.
    intros Hr Hr' Ec Ep Ht Ht' E. rewrite <- (uniqueb_same r r' Ec Ep) in Ht'. destruct Ht as [[-> Hu]|[-> Hu]], Ht' as [[-> Hu']|[-> Hu']]; try congruence.
    - split; [apply unique_same; assumption | exact E].
    - cbn [append] in E. injection E as E. rewrite !sapp_assoc in E. destruct (split_at special (r_cv r) (r_cv r') ("]" ++ k) ("]" ++ k') (word_free _ (proj2 (proj2 (ps_words _ Hps r Hr)))) (word_free _ (proj2 (proj2 (ps_words _ Hps r' Hr')))) eq_refl eq_refl E) as [Ev Ek].
      split; [apply (ps_one _ Hps); assumption | injection Ek as ->; reflexivity].
  Qed.
  Lemma text_starts r t k : starts special k -> (t = "" /\ rel_uniqueb rels r = true \/ t = "[" ++ r_cv r ++ "]" /\ rel_uniqueb rels r = false) -> starts special (t ++ k).
  Proof. intros Hk [[-> _]|[-> _]]; [exact Hk | reflexivity]. Qed.
  Lemma after_starts k : after_segment k -> starts special k.
  Proof. destruct k as [|c k]; [intros []|]. cbn. intros [<-|[<-|[<-|[<-|[]]]]]; reflexivity. Qed.

  Lemma parent_decode r r' k k' : In r rels -> In r' rels -> r_ce r = r_ce r' -> after_segment k -> after_segment k' ->
    parent_name rels r ++ k = parent_name rels r' ++ k' -> r = r' /\ k = k'.
  Proof.
    intros Hr Hr' Ec Hk Hk'. destruct (parent_text r) as (t & -> & Ht), (parent_text r') as (t' & -> & Ht'). rewrite !sapp_assoc. intros E.
    apply (split_at special) in E as [Ep E]; [|apply word_free, (ps_words _ Hps r Hr) | apply word_free, (ps_words _ Hps r' Hr') | apply (text_starts r); [apply after_starts; exact Hk | exact Ht] | apply (text_starts r'); [apply after_starts; exact Hk' | exact Ht']].
    apply (segment_rest r r' t t'); assumption.
  Qed.
  Lemma child_decode r r' k k' : In r rels -> In r' rels -> r_pe r = r_pe r' -> after_segment k -> after_segment k' ->
    child_name rels r ++ k = child_name rels r' ++ k' -> r = r' /\ k = k'.
  Proof.
    intros Hr Hr' Ep Hk Hk'. destruct (child_text r) as (t & -> & Ht), (child_text r') as (t' & -> & Ht'). rewrite !sapp_assoc. intros E.
    apply (split_at special) in E as [Ec E]; [|apply word_free, (ps_words _ Hps r Hr) | apply word_free, (ps_words _ Hps r' Hr') | apply (text_starts r); [apply after_starts; exact Hk | exact Ht] | apply (text_starts r'); [apply after_starts; exact Hk' | exact Ht']].
    apply (segment_rest r r' t t'); assumption.
  Qed.

  (** ** paths *)
  Fixpoint dots (l : list string) (k : string) : string := match l with [] => k | x :: l' => "." ++ x ++ dots l' k end.
  Lemma concat_dots x l k : String.concat "." (x :: l) ++ k = x ++ dots l k.
  Proof.
    revert x. induction l as [|y l IH]; intros x; [reflexivity|]. change (String.concat "." (x :: y :: l)) with (x ++ "." ++ String.concat "." (y :: l)).
    rewrite !sapp_assoc, IH. reflexivity.
  Qed.
  (** what follows the path of an aggregation ([true]) or a count ([false]) whose rows are in entity [c] *)
  Definition follows (agg : bool) (c k : string) : Prop :=
    if agg then exists b rest, k = "." ++ nm b ++ rest /\ ord c b /\ term rest else is_char [" "; ","; ")"]%char k.
  Lemma follows_after agg c k : follows agg c k -> after_segment k.
  Proof. destruct agg; [intros (b & rest & -> & _); left; reflexivity|]. destruct k as [|x k]; [intros []|]. cbn. tauto. Qed.
  Lemma dots_after agg c l k : follows agg c k -> after_segment (dots l k).
  Proof. intros H. destruct l; [apply (follows_after agg c); exact H | left; reflexivity]. Qed.
  (** the path of one cannot be longer than that of the other *)
  Lemma clash agg c k r l c' k' : In r rels -> r_pe r = c -> follows agg c k -> follows agg c' k' -> k = dots (child_name rels r :: l) k' -> False.
  Proof.
    intros Hr Hc Hk Hk' E. destruct agg.
    - destruct Hk as (b & rest & -> & Hb & Hrest). cbn [dots append] in E. injection E as E. destruct (child_text r) as (t & Ec & Ht). rewrite Ec, sapp_assoc in E.
      destruct (head c b Hb) as (a & u & Ea & Ha & Hu). rewrite Ea, sapp_assoc in E.
      assert (starts special (u ++ rest)) as Su. { destruct Hu as [->|[Hu|(r' & b' & _ & _ & _ & _ & Hu)]]; [apply term_starts; exact Hrest | apply (is_char_starts ["("%char]); [reflexivity | exact Hu] | apply (is_char_starts ["."; "["]%char); [reflexivity | exact Hu]]. }
      assert (is_char ["."]%char (dots l k')) as Hd by (destruct l; [destruct Hk' as (b' & rest' & -> & _); left; reflexivity | left; reflexivity]).
      assert (is_char ["."; "["]%char (t ++ dots l k')) as Hd2 by (destruct Ht as [[-> _]|[-> _]]; [destruct (dots l k') as [|x z]; [destruct Hd | destruct Hd as [<-|[]]; left; reflexivity] | right; left; reflexivity]).
      apply (split_at special) in E as [E1 E2]; [|apply word_free; exact Ha | apply word_free, (ps_words _ Hps r Hr) | exact Su |].
      + destruct Hu as [->|[Hu|(r' & b' & -> & Hr' & Hc' & -> & _)]].
        * cbn [append] in E2. rewrite <- E2 in Hd2. destruct rest as [|x rest]; [destruct Hd2|]. cbn in Hrest, Hd2. destruct Hd2 as [<-|[<-|[]]]; destruct Hrest as [E3|[E3|[E3 _]]]; discriminate E3.
        * destruct u as [|x u]; [destruct Hu|]. destruct Hu as [<-|[]]. cbn [append] in E2. rewrite <- E2 in Hd2. destruct Hd2 as [E3|[E3|[]]]; discriminate E3.
        * apply (ps_acyclic _ Hps r' r Hr' Hr); congruence.
      + destruct (t ++ dots l k') as [|x z]; [destruct Hd2|]. destruct Hd2 as [<-|[<-|[]]]; reflexivity.
    - rewrite E in Hk. destruct Hk as [E3|[E3|[E3|[]]]]; discriminate E3.
  Qed.
  Lemma bchain_cons e r p c : backward_chain rels e (r :: p) c -> In r rels /\ r_pe r = e /\ backward_chain rels (r_ce r) p c.
  Proof. intros H. inversion H; subst. auto. Qed.
  Lemma bchain_nil e c : backward_chain rels e [] c -> c = e.
  Proof. intros H. inversion H; subst. reflexivity. Qed.
  Lemma paths_decode agg p1 : forall p2 e c1 c2 k1 k2, backward_chain rels e p1 c1 -> backward_chain rels e p2 c2 -> follows agg c1 k1 -> follows agg c2 k2 ->
    dots (map (child_name rels) p1) k1 = dots (map (child_name rels) p2) k2 -> p1 = p2 /\ k1 = k2.
  Proof.
    induction p1 as [|r1 p1 IH]; intros [|r2 p2] e c1 c2 k1 k2 H1 H2 F1 F2 E; cbn [map] in E.
    - split; [reflexivity | exact E].
    - exfalso. apply bchain_nil in H1 as ->. apply bchain_cons in H2 as (Hr & Hp & _). apply (clash agg e k1 r2 (map (child_name rels) p2) c2 k2); assumption.
    - exfalso. apply bchain_nil in H2 as ->. apply bchain_cons in H1 as (Hr & Hp & _). apply (clash agg e k2 r1 (map (child_name rels) p1) c1 k1); try assumption. symmetry; exact E.
    - apply bchain_cons in H1 as (Hr1 & Hp1 & H1), H2 as (Hr2 & Hp2 & H2). cbn [dots append] in E. injection E as E.
      destruct (child_decode r1 r2 _ _ Hr1 Hr2 ltac:(congruence) (dots_after agg c1 _ _ F1) (dots_after agg c2 _ _ F2) E) as [<- E'].
      destruct (IH p2 (r_ce r1) c1 c2 k1 k2 H1 H2 F1 F2 E') as [-> ->]. split; reflexivity.
  Qed.

  Definition path_text (c : string) (path : list relationship) (u : bool) : string := if u then c else String.concat "." (map (child_name rels) path).
  Definition flag (e c : string) (path : list relationship) (u : bool) : Prop := u = true <-> forall path', path' <> [] -> backward_chain rels e path' c -> path' = path.

  Lemma chain_last e path c : path <> [] -> backward_chain rels e path c -> exists r, In r rels /\ r_ce r = c.
  Proof.
    intros Hne H. induction H as [a|r p b Hr H IH]; [congruence|]. destruct p as [|r' p]; [inversion H; subst; exists r; split; [exact Hr | reflexivity] | apply IH; discriminate].
  Qed.

  Lemma mixed_decode agg e p1 p2 c1 c2 k1 k2 : p1 <> [] -> p2 <> [] -> backward_chain rels e p1 c1 -> backward_chain rels e p2 c2 ->
    flag e c1 p1 true -> flag e c2 p2 false -> follows agg c1 k1 -> follows agg c2 k2 -> c1 ++ k1 = String.concat "." (map (child_name rels) p2) ++ k2 -> False.
  Proof.
    intros N1 N2 H1 H2 G1 G2 F1 F2 E. destruct p2 as [|r p]; [congruence|]. cbn [map] in E. rewrite concat_dots in E. destruct (child_text r) as (t & Ec & Ht). rewrite Ec, sapp_assoc in E.
    pose proof H2 as H2c. apply bchain_cons in H2 as (Hr & Hp & H2').
    destruct (chain_last _ _ _ N1 H1) as (rc & Hrc & Erc).
    apply (split_at special) in E as [E1 E2]; [|rewrite <- Erc; apply word_free, (ps_words _ Hps rc Hrc) | apply word_free, (ps_words _ Hps r Hr) | apply after_starts, (follows_after agg c1); exact F1 | apply (text_starts r); [apply after_starts, (dots_after agg c2); exact F2 | exact Ht]].
    destruct p as [|r2 p].
    - apply bchain_nil in H2'. subst c2. rewrite <- E1 in *. assert (p1 = [r]) as -> by (symmetry; apply (proj1 G1 eq_refl [r]); [discriminate | exact H2c]).
      assert (false = true) by (apply G2; intros path' Hne Hc; apply (proj1 G1 eq_refl); assumption). discriminate.
    - apply bchain_cons in H2' as (Hr2 & Hp2 & _). destruct Ht as [[-> _]|[-> _]].
      + cbn [append map] in E2. apply (clash agg c1 k1 r2 (map (child_name rels) p) c2 k2); try assumption. congruence.
      + apply follows_after in F1. rewrite E2 in F1. destruct F1 as [E3|[E3|[E3|[E3|[]]]]]; discriminate E3.
  Qed.
  Lemma path_decode agg e p1 p2 u1 u2 c1 c2 k1 k2 : p1 <> [] -> p2 <> [] -> backward_chain rels e p1 c1 -> backward_chain rels e p2 c2 ->
    flag e c1 p1 u1 -> flag e c2 p2 u2 -> follows agg c1 k1 -> follows agg c2 k2 -> path_text c1 p1 u1 ++ k1 = path_text c2 p2 u2 ++ k2 -> p1 = p2 /\ u1 = u2 /\ c1 = c2 /\ k1 = k2.
  Proof.
    intros N1 N2 H1 H2 G1 G2 F1 F2 E.
    assert (forall p a c c', backward_chain rels a p c -> backward_chain rels a p c' -> c = c') as Hdet.
    { intros p. induction p as [|r p IH]; intros a c c' Hc Hc'; [apply bchain_nil in Hc, Hc'; congruence | apply bchain_cons in Hc as (_ & _ & Hc), Hc' as (_ & _ & Hc'); exact (IH _ _ _ Hc Hc')]. }
    destruct u1, u2; unfold path_text in E.
    - destruct (chain_last _ _ _ N1 H1) as (rc & Hrc & Erc). destruct (chain_last _ _ _ N2 H2) as (rc2 & Hrc2 & Erc2).
      apply (split_at special) in E as [-> ->]; [|rewrite <- Erc; apply word_free, (ps_words _ Hps rc Hrc) | rewrite <- Erc2; apply word_free, (ps_words _ Hps rc2 Hrc2) | apply after_starts, (follows_after agg c1); exact F1 | apply after_starts, (follows_after agg c2); exact F2].
      split; [apply (proj1 G2 eq_refl); assumption|]. repeat split; reflexivity.
    - exfalso. apply (mixed_decode agg e p1 p2 c1 c2 k1 k2); assumption.
    - exfalso. apply (mixed_decode agg e p2 p1 c2 c1 k2 k1); try assumption. symmetry. exact E.
    - destruct p1 as [|r1 p1]; [congruence|]. destruct p2 as [|r2 p2]; [congruence|]. cbn [map] in E. rewrite !concat_dots in E.
      destruct (paths_decode agg (r1 :: p1) (r2 :: p2) e c1 c2 k1 k2 H1 H2 F1 F2) as [E1 ->]; [cbn [map dots]; rewrite E; reflexivity|]. rewrite E1 in *.
      split; [reflexivity|]. split; [reflexivity|]. split; [eapply Hdet; eassumption | reflexivity].
  Qed.

  (** ** windows *)
  Lemma prev_closes d args k : closes (prev_str d ++ commas args (")" ++ k)).
  Proof. destruct d as [d|]; [left; reflexivity | apply args_closes]. Qed.
  Lemma prev_decode d1 d2 a1 a2 k1 k2 : (forall d, d1 = Some d -> delta d) -> (forall d, d2 = Some d -> delta d) -> Forall argument a1 -> Forall argument a2 ->
    prev_str d1 ++ commas a1 (")" ++ k1) = prev_str d2 ++ commas a2 (")" ++ k2) -> d1 = d2 /\ a1 = a2 /\ k1 = k2.
  Proof.
    assert (forall d a1 a2 k1 k2, Forall argument a1 -> prev_str (Some d) ++ commas a2 (")" ++ k2) = commas a1 (")" ++ k1) -> False) as Hx.
    { intros d b1 b2 j1 j2 Hb E. destruct b1 as [|a b1]; [discriminate E|]. cbn [prev_str commas append] in E. injection E as E. inversion Hb as [|a' l' [Ha He] Hb']; subst.
      assert ("Last" ++ " " ++ td_name d ++ commas b2 (")" ++ j2) = a ++ commas b1 (")" ++ j1)) as E' by (etransitivity; [|exact E]; cbn [append]; rewrite <- ?sapp_assoc; reflexivity).
      apply (split_at special) in E' as [<- _]; [discriminate He | reflexivity | exact Ha | reflexivity | apply term_starts, closes_term, args_closes]. }
    intros H1 H2 A1 A2 E. destruct d1 as [d1|], d2 as [d2|].
    - cbn [prev_str append] in E. injection E as E. pose proof (H1 d1 eq_refl) as D1. pose proof (H2 d2 eq_refl) as D2. destruct Hdel as [Ht Hi].
      assert (forall a k, starts (fun c => existsb (Ascii.eqb c) ["("; ")"; ","]%char) (commas a (")" ++ k))) as Hs by (intros a k; destruct a; reflexivity).
      apply split_at with (bad := fun c => existsb (Ascii.eqb c) ["("; ")"; ","]%char) in E as [En E]; [|apply Ht; exact D1 | apply Ht; exact D2 | exact (Hs a1 k1) | exact (Hs a2 k2)].
      destruct (args_decode _ _ _ _ A1 A2 E) as [-> ->]. rewrite (Hi d1 d2 D1 D2 En). repeat split; reflexivity.
    - exfalso. exact (Hx _ _ _ _ _ A2 E).
    - exfalso. exact (Hx _ _ _ _ _ A1 (eq_sym E)).
    - destruct (args_decode _ _ _ _ A1 A2 E) as [-> ->]. repeat split; reflexivity.
  Qed.

  (** ** everything together *)
  Definition condition (c : string) (w : feat) : Prop :=
    ord c w \/ match w with FTrans q [b] None => (exists op v, style_of q (Scalar op v)) /\ ord c b | _ => False end.

  (** the tail after a list of bases *)
  Definition tail_ok (k : string) : Prop := term k /\ forall s, k = ", " ++ s -> headed (fun a => ~ word a) s.
  Lemma commas_term l k : term k -> term (commas l k).
  Proof. destruct l; [trivial|]. intros _. left. reflexivity. Qed.

  Section Step.
    Variable n : nat.
    Hypothesis IH : forall f1 f2 e k1 k2, fsize f1 <= n -> ord e f1 -> ord e f2 -> term k1 -> term k2 -> nm f1 ++ k1 = nm f2 ++ k2 -> f1 = f2 /\ k1 = k2.

    Lemma bases_decode e b1 : forall b2 k1 k2, list_sum (map fsize b1) <= n -> Forall (ord e) b1 -> Forall (ord e) b2 -> tail_ok k1 -> tail_ok k2 ->
      commas (map nm b1) k1 = commas (map nm b2) k2 -> b1 = b2 /\ k1 = k2.
    Proof.
      assert (forall f l k k', ord e f -> tail_ok k -> term k' -> k = commas (map nm (f :: l)) k' -> False) as Hx.
      { intros f l k k' Hf [_ Hk] Hk' E. cbn [map commas] in E. specialize (Hk _ E). refine (headed_apart _ _ _ Hk (head_word e f _ Hf (term_starts _ (commas_term _ _ Hk'))) _). intros a H1 H2. exact (H1 H2). }
      induction b1 as [|f b1 IHb]; intros [|g b2] k1 k2 Hs H1 H2 T1 T2 E.
      - split; [reflexivity | exact E].
      - exfalso. inversion H2; subst. apply (Hx g b2 k1 k2); try assumption. exact (proj1 T2).
      - exfalso. inversion H1; subst. apply (Hx f b1 k2 k1); try assumption; [exact (proj1 T1) | symmetry; exact E].
      - inversion H1; inversion H2; subst. change (list_sum (map fsize (f :: b1))) with (fsize f + list_sum (map fsize b1)) in Hs. cbn [map commas append] in E. injection E as E.
        destruct (IH f g e _ _ ltac:(lia) H3 H7 (commas_term _ _ (proj1 T1)) (commas_term _ _ (proj1 T2)) E) as [-> E'].
        destruct (IHb b2 k1 k2 ltac:(lia) H4 H8 T1 T2 E') as [-> ->]. split; reflexivity.
    Qed.
    Lemma bases_decode1 e f b1 g b2 k1 k2 : list_sum (map fsize (f :: b1)) <= n -> Forall (ord e) (f :: b1) -> Forall (ord e) (g :: b2) -> tail_ok k1 -> tail_ok k2 ->
      nm f ++ commas (map nm b1) k1 = nm g ++ commas (map nm b2) k2 -> f :: b1 = g :: b2 /\ k1 = k2.
    Proof. intros Hs H1 H2 T1 T2 E. apply (bases_decode e); try assumption. cbn [map commas]. rewrite E. reflexivity. Qed.

    Lemma args_tail args k : Forall argument args -> tail_ok (commas args (")" ++ k)).
    Proof.
      intros H. split; [apply closes_term, args_closes|]. intros s E. destruct args as [|a args]; [discriminate E|]. cbn [commas append] in E. injection E as <-. inversion H as [|a' l' [Ha He] H']; subst.
      exists a, (commas args (")" ++ k)). split; [reflexivity|]. split; [exact Ha|]. split; [apply term_starts, closes_term, args_closes|]. intros Hw. rewrite (word_no_eq a Hw) in He. discriminate.
    Qed.
    Lemma agg_tail wh d args k : Forall argument args -> tail_ok (where_text wh ++ prev_str d ++ commas args (")" ++ k)).
    Proof.
      intros H. destruct wh as [w|].
      - split; [right; right; split; [reflexivity | discriminate] | discriminate].
      - destruct d as [d|]; [|apply args_tail; exact H]. split; [left; reflexivity|]. cbn [where_text prev_str append]. intros s E. injection E as <-.
        exists "Last", (" " ++ td_name d ++ commas args (String ")" k)). split; [cbn [append]; rewrite <- ?sapp_assoc; reflexivity|]. split; [reflexivity|]. split; [reflexivity|]. intros (_ & _ & Hl). congruence.
    Qed.

    Lemma scalar_text q b op v : style_of q (Scalar op v) -> nm (FTrans q [b] None) = nm b ++ " " ++ op ++ " " ++ v.
    Proof. intros Hs. rewrite nm_trans. rewrite (proj1 (st_scalar _ Hst q op v Hs)). reflexivity. Qed.
    Lemma scalar_term q op v k : style_of q (Scalar op v) -> term ((" " ++ op ++ " " ++ v) ++ k).
    Proof. intros Hs. destruct (st_scalar _ Hst q op v Hs) as (_ & Hne & _ & Hb & _). right; right. split; [reflexivity|]. destruct op as [|x op]; [congruence|]. cbn in Hb |- *. congruence. Qed.
    Lemma condition_decode c w1 w2 k1 k2 : fsize w1 <= n -> condition c w1 -> condition c w2 -> closes k1 -> closes k2 -> nm w1 ++ k1 = nm w2 ++ k2 -> w1 = w2 /\ k1 = k2.
    Proof.
      intros Hn C1 C2 K1 K2 E.
      assert (forall w q b op v k k', ord c w -> ord c b -> fsize w <= n \/ fsize b <= n -> style_of q (Scalar op v) -> closes k -> closes k' -> nm w ++ k = nm (FTrans q [b] None) ++ k' -> False) as Hx.
      { intros w q b op v k k' Hw Hb Hsz Hs Kk Kk' E'. rewrite (scalar_text q b op v Hs), sapp_assoc in E'.
        assert (k = (" " ++ op ++ " " ++ v) ++ k') as Ek. { destruct Hsz as [Hsz|Hsz]; [apply (IH w b c) in E' as [_ E'] | symmetry in E'; apply (IH b w c) in E' as [_ E']]; try assumption; try (apply closes_term; assumption); try (apply (scalar_term q); exact Hs); congruence. }
        rewrite Ek in Kk. destruct Kk as [Kk|Kk]; discriminate Kk. }
      destruct C1 as [C1|C1], C2 as [C2|C2].
      - apply (IH w1 w2 c); try assumption; apply closes_term; assumption.
      - exfalso. destruct w2 as [| | |q [|b [|]] [|]| |]; try (destruct C2; fail). destruct C2 as [(op & v & Hs) Hb]. apply (Hx w1 q b op v k1 k2); try assumption. left; exact Hn.
      - exfalso. destruct w1 as [| | |q [|b [|]] [|]| |]; try (destruct C1; fail). destruct C1 as [(op & v & Hs) Hb]. apply (Hx w2 q b op v k2 k1); try assumption; [right; cbn in Hn; lia | symmetry; exact E].
      - destruct w1 as [| | |q1 [|b1 [|]] [|]| |]; try (destruct C1; fail). destruct w2 as [| | |q2 [|b2 [|]] [|]| |]; try (destruct C2; fail).
        destruct C1 as [(op1 & v1 & S1) B1], C2 as [(op2 & v2 & S2) B2]. rewrite (scalar_text _ _ _ _ S1), (scalar_text _ _ _ _ S2), !sapp_assoc in E.
        apply (IH b1 b2 c) in E as [-> E]; try assumption; [|cbn in Hn; lia | pose proof (scalar_term q1 op1 v1 k1 S1) as Z; rewrite !sapp_assoc in Z; exact Z | pose proof (scalar_term q2 op2 v2 k2 S2) as Z; rewrite !sapp_assoc in Z; exact Z].
        destruct (st_scalar _ Hst _ _ _ S1) as (_ & _ & O1 & _ & V1), (st_scalar _ Hst _ _ _ S2) as (_ & _ & O2 & _ & V2).
        cbn [append] in E. injection E as E. apply (split_at special) in E as [-> E]; [|exact O1 | exact O2 | reflexivity | reflexivity].
        cbn [append] in E. injection E as E. apply (split_at special) in E as [-> ->]; [|exact V1 | exact V2 | apply term_starts, closes_term; exact K1 | apply term_starts, closes_term; exact K2].
        rewrite (st_one _ Hst q1 q2 _ S1 S2). split; reflexivity.
    Qed.
    Lemma where_decode c w1 w2 k1 k2 : (forall w, w1 = Some w -> fsize w <= n /\ condition c w) -> (forall w, w2 = Some w -> condition c w) -> closes k1 -> closes k2 ->
      where_text w1 ++ k1 = where_text w2 ++ k2 -> w1 = w2 /\ k1 = k2.
    Proof.
      intros H1 H2 K1 K2 E. destruct w1 as [w1|], w2 as [w2|]; cbn [where_text] in E.
      - cbn [append] in E. injection E as E. destruct (H1 w1 eq_refl) as [Hn C1]. destruct (condition_decode c w1 w2 k1 k2 Hn C1 (H2 w2 eq_refl) K1 K2 E) as [-> ->]. split; reflexivity.
      - exfalso. cbn [append] in E. subst k2. destruct K2 as [K2|K2]; discriminate K2.
      - exfalso. cbn [append] in E. subst k1. destruct K1 as [K1|K1]; discriminate K1.
      - split; [reflexivity | exact E].
    Qed.
  End Step.
End Decode.
