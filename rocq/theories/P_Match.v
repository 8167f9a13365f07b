(** C30: the inputs of a primitive.  C31: the options of a primitive. *)
From Coq Require Import Permutation Sorted RelationClasses.
From Verif Require Import Base BaseFacts M_Schema M_Feature M_Types M_Match S_Calc S_Match S_Depth P_Depth L_FeatureSet P_Serialize.
Local Open Scope string_scope.
Local Open Scope list_scope.

(** ** Deduplication by an equivalence *)
Section Dedup.
  Context {A : Type} (eqb : A -> A -> bool).
  Lemma dedup_incl seen l a : In a (dedup_by eqb seen l) -> In a l.
  Proof. revert seen. induction l as [|b l IH]; intros seen; cbn [dedup_by]; [tauto|]. destruct (existsb (eqb b) seen); [intros H; right; eapply IH; eauto|]. intros [<-|H]; [left; reflexivity | right; eapply IH; eauto]. Qed.
  Lemma dedup_cover seen l a : In a l -> exists b, (In b seen \/ In b (dedup_by eqb seen l)) /\ (a = b \/ eqb a b = true).
  Proof.
    revert seen. induction l as [|c l IH]; intros seen; [contradiction|]. cbn [dedup_by]. intros [->|H].
    - destruct (existsb (eqb a) seen) eqn:E; [apply existsb_exists in E as (b & Hb & E); exists b; auto | exists a; split; [right; left; reflexivity | left; reflexivity]].
    - destruct (existsb (eqb c) seen); [apply IH; exact H|]. destruct (IH (c :: seen) H) as (b & Hb & E). exists b. split; [|exact E]. destruct Hb as [[->|Hb]|Hb]; [right; left; reflexivity | left; exact Hb | right; right; exact Hb].
  Qed.
  Lemma dedup_seen seen l a : In a (dedup_by eqb seen l) -> forall s, In s seen -> eqb a s = false.
  Proof.
    revert seen. induction l as [|c l IH]; intros seen; cbn [dedup_by]; [contradiction|]. destruct (existsb (eqb c) seen) eqn:E; [apply IH|].
    intros [<-|H] s Hs; [apply not_true_is_false; intros E'; assert (existsb (eqb c) seen = true) by (apply existsb_exists; exists s; auto); congruence | eapply IH; [exact H | right; exact Hs]].
  Qed.
  Lemma dedup_distinct seen l : (forall a, In a l -> eqb a a = true) -> (forall a b, eqb a b = eqb b a) ->
    NoDup (dedup_by eqb seen l) /\ (forall a b, In a (dedup_by eqb seen l) -> In b (dedup_by eqb seen l) -> eqb a b = true -> a = b).
  Proof.
    intros Hr Hs. revert seen. induction l as [|c l IH]; intros seen; cbn [dedup_by]; [split; [constructor | contradiction]|].
    destruct (existsb (eqb c) seen); [apply IH; intros a Ha; apply Hr; right; exact Ha|]. destruct (IH (fun a Ha => Hr a (or_intror Ha)) (c :: seen)) as [H1 H2]. split.
    - constructor; [|exact H1]. intros H. pose proof (dedup_seen _ _ _ H c (or_introl eq_refl)) as E. rewrite (Hr c (or_introl eq_refl)) in E. discriminate.
    - intros a b [<-|Ha] [<-|Hb] E; [reflexivity | pose proof (dedup_seen _ _ _ Hb c (or_introl eq_refl)) as E'; rewrite Hs in E; congruence | pose proof (dedup_seen _ _ _ Ha c (or_introl eq_refl)) as E'; congruence | apply H2; assumption].
  Qed.
End Dedup.

Lemma list_eqb_map {A} (eqb : A -> A -> bool) (k : A -> string) a b : (forall x y, eqb x y = String.eqb (k x) (k y)) -> list_eqb eqb a b = true <-> map k a = map k b.
Proof.
  intros H. revert b. induction a as [|x a IH]; intros [|y b]; cbn [list_eqb map]; try (split; [discriminate | discriminate]); [tauto|].
  rewrite andb_true_iff, H, String.eqb_eq, IH. split; [intros [-> ->]; reflexivity | intros E; injection E; auto].
Qed.

Lemma str_compare_trans_lt a : forall b c, String.compare a b = Lt -> String.compare b c = Lt -> String.compare a c = Lt.
Proof.
  induction a as [|x a IH]; intros [|y b] [|z c]; cbn [String.compare]; try discriminate; try reflexivity.
  unfold Ascii.compare. destruct (N.compare_spec (Ascii.N_of_ascii x) (Ascii.N_of_ascii y)) as [E|E|E]; destruct (N.compare_spec (Ascii.N_of_ascii y) (Ascii.N_of_ascii z)) as [E'|E'|E']; try discriminate; intros H1 H2.
  - rewrite E, E', N.compare_refl. eapply IH; eauto.
  - rewrite E. destruct (N.compare_spec (Ascii.N_of_ascii y) (Ascii.N_of_ascii z)); [lia | reflexivity | lia].
  - rewrite <- E'. destruct (N.compare_spec (Ascii.N_of_ascii x) (Ascii.N_of_ascii y)); [lia | reflexivity | lia].
  - destruct (N.compare_spec (Ascii.N_of_ascii x) (Ascii.N_of_ascii z)); [lia | reflexivity | lia].
Qed.
Lemma str_compare_eq a b : String.compare a b = Eq <-> a = b.
Proof. split; [apply String.compare_eq_iff | intros ->; pose proof (String.compare_antisym b b) as H; destruct (String.compare b b); [reflexivity | discriminate | discriminate]]. Qed.
Lemma str_leb_total a b : str_leb a b = true \/ str_leb b a = true.
Proof. unfold str_leb. rewrite (String.compare_antisym a b). destruct (String.compare b a); cbn; auto. Qed.
Lemma str_leb_trans a b c : str_leb a b = true -> str_leb b c = true -> str_leb a c = true.
Proof.
  unfold str_leb. destruct (String.compare a b) eqn:E1; try discriminate; destruct (String.compare b c) eqn:E2; try discriminate; intros _ _.
  - apply str_compare_eq in E1 as ->. rewrite E2. reflexivity.
  - apply str_compare_eq in E1 as ->. rewrite E2. reflexivity.
  - apply str_compare_eq in E2 as ->. rewrite E1. reflexivity.
  - rewrite (str_compare_trans_lt _ _ _ E1 E2). reflexivity.
Qed.

Section Match.
  Variable rels : list relationship.
  Variable p_ret : prim -> option vtyp.
  Variable vtypes : string -> string -> option vtyp.
  Variable lower : string -> string.
  Variable ordF : list feat -> list feat.
  Hypothesis ordF_perm : forall l, Permutation (ordF l) l.
  Notation fname := (fname rels).
  Notation funique := (funique rels).
  Notation ftype := (ftype p_ret vtypes).
  Notation choice := (choice p_ret vtypes).
  Notation feq := (feq rels).
  Notation match_plain := (match_plain rels p_ret vtypes).
  Notation match_inputs := (match_inputs rels p_ret vtypes lower ordF).

  (** ** Elements of a match come from the pool *)
  Lemma plain_incl ts : forall fs d m, In m (match_plain ts fs d) -> incl m fs /\ List.length m = List.length ts.
  Proof.
    induction ts as [|t ts IH]; intros fs d m; [contradiction|]. destruct ts as [|t' ts'].
    - cbn [M_Match.match_plain]. rewrite in_map_iff. intros (x & <- & Hx). apply filter_In in Hx as [Hx _]. apply filter_In in Hx as [Hx _]. split; [intros y [<-|[]]; exact Hx | reflexivity].
    - change (match_plain (t :: t' :: ts') fs d) with (dedup_by (tuple_eq rels) [] (flat_map (fun m => map (cons m) (match_plain (t' :: ts') (without rels m fs) (d && negb (is_direct m)))) (match_by_type p_ret vtypes fs t))).
      intros H. apply dedup_incl in H. apply in_flat_map in H as (x & Hx & H). apply in_map_iff in H as (m' & <- & Hm'). apply filter_In in Hx as [Hx _]. destruct (IH _ _ _ Hm') as [H1 H2].
      split; [|cbn [List.length] in *; congruence]. intros y [<-|Hy]; [exact Hx|]. apply H1 in Hy. apply filter_In in Hy. tauto.
  Qed.
  Lemma inputs_incl ts fs c d ms m : match_inputs ts fs c d = Ok ms -> In m ms -> incl m fs.
  Proof.
    destruct ts as [|t [|t' ts]]; [discriminate| |].
    - intros [= <-] Hm. apply (plain_incl [t] fs d m Hm).
    - cbn [M_Match.match_inputs]. destruct c; intros [= <-] Hm; [|apply (plain_incl (t :: t' :: ts) fs d m Hm)]. apply dedup_incl in Hm. apply in_map_iff in Hm as (s & <- & Hs). apply dedup_incl in Hs. apply in_map_iff in Hs as (l & <- & Hl).
      intros x Hx. apply (Permutation_in _ (isort_perm _ _)) in Hx. apply (Permutation_in _ (ordF_perm _)) in Hx. apply dedup_incl in Hx.
      apply in_flat_map in Hl as (y & Hy & Hl). apply in_map_iff in Hl as (l' & <- & Hl'). apply filter_In in Hy as [Hy _]. destruct Hx as [<-|Hx]; [exact Hy|]. apply (plain_incl (t' :: ts) (without rels y fs) (d && negb (is_direct y)) l' Hl') in Hx. apply filter_In in Hx. tauto.
  Qed.

  (** ** One input per declared type *)
  Lemma plain_takes ts : forall fs d m, In m (match_plain ts fs d) -> Forall2 (fun f ty => issub (ftype f) ty = true) m ts /\ NoDup (map funique m).
  Proof.
    induction ts as [|t ts IH]; intros fs d m; [contradiction|]. destruct ts as [|t' ts'].
    - cbn [M_Match.match_plain]. rewrite in_map_iff. intros (x & <- & Hx). apply filter_In in Hx as [Hx _]. apply filter_In in Hx as [_ Hx]. split; [constructor; [exact Hx | constructor] | constructor; [intros [] | constructor]].
    - change (match_plain (t :: t' :: ts') fs d) with (dedup_by (tuple_eq rels) [] (flat_map (fun m => map (cons m) (match_plain (t' :: ts') (without rels m fs) (d && negb (is_direct m)))) (match_by_type p_ret vtypes fs t))).
      intros H. apply dedup_incl in H. apply in_flat_map in H as (x & Hx & H). apply in_map_iff in H as (m' & <- & Hm'). apply filter_In in Hx as [_ Hx]. destruct (IH _ _ _ Hm') as [H1 H2].
      split; [constructor; [exact Hx | exact H1]|]. cbn [map]. constructor; [|exact H2]. intros Hin. apply in_map_iff in Hin as (y & E & Hy). apply (plain_incl _ _ _ _ Hm') in Hy. apply filter_In in Hy as [_ Hy]. rewrite E, String.eqb_refl in Hy. discriminate.
  Qed.
  Lemma str_length_app (a b : string) : String.length (a ++ b)%string = String.length a + String.length b.
  Proof. induction a; cbn; congruence. Qed.
  Lemma app_tail_inj (a b c : string) : (a ++ c = b ++ c)%string -> a = b.
  Proof.
    revert b. induction a as [|x a IH]; intros [|y b]; cbn; [reflexivity| | |intros [= -> H]; f_equal; apply IH; exact H].
    - intros H. apply (f_equal String.length) in H. cbn in H. rewrite str_length_app in H. lia.
    - intros H. apply (f_equal String.length) in H. cbn in H. rewrite str_length_app in H. lia.
  Qed.
  Lemma dedup_named e l : forall seen, (forall f, In f l -> fentity f = e) -> (forall f, In f seen -> fentity f = e) -> NoDup (map funique l) -> (forall f g, In f l -> In g seen -> funique f <> funique g) -> dedup_by feq seen l = l.
  Proof.
    induction l as [|f l IH]; intros seen Hl Hs Hn Hd; [reflexivity|]. cbn [dedup_by map] in *. inversion Hn as [|? ? N1 N2]; subst. replace (existsb (feq f) seen) with false.
    - f_equal. apply IH; [intros g Hg; apply Hl; right; exact Hg | intros g [<-|Hg]; [apply Hl; left; reflexivity | apply Hs; exact Hg] | exact N2|].
      intros g h Hg [<-|Hh]; [intros E; apply N1; rewrite <- E; apply in_map; exact Hg | apply Hd; [right; exact Hg | exact Hh]].
    - symmetry. apply not_true_is_false. intros H. apply existsb_exists in H as (g & Hg & H). apply (Hd f g (or_introl eq_refl) Hg). unfold M_Match.feq, fkey in H. apply String.eqb_eq in H. rewrite (Hl f (or_introl eq_refl)), (Hs g Hg) in H.
      apply app_tail_inj in H. unfold M_Feature.funique. rewrite H, (Hl f (or_introl eq_refl)), (Hs g Hg). reflexivity.
  Qed.
  Lemma inputs_takes e ts fs c d ms m : (forall f, In f fs -> fentity f = e) -> match_inputs ts fs c d = Ok ms -> In m ms ->
    exists t, Permutation t m /\ Forall2 (fun f ty => issub (ftype f) ty = true) t ts.
  Proof.
    intros He. destruct ts as [|t [|t' ts]]; [discriminate| |].
    - intros [= <-] Hm. exists m. split; [reflexivity | apply (plain_takes [t] fs d m Hm)].
    - cbn [M_Match.match_inputs]. destruct c; intros [= <-] Hm; [|exists m; split; [reflexivity | apply (plain_takes (t :: t' :: ts) fs d m Hm)]]. apply dedup_incl in Hm. apply in_map_iff in Hm as (s & <- & Hs). apply dedup_incl in Hs. apply in_map_iff in Hs as (l & <- & Hl).
      exists l. apply in_flat_map in Hl as (y & Hy & Hl). apply in_map_iff in Hl as (l' & <- & Hl'). apply filter_In in Hy as [Hyf Hy]. destruct (plain_takes (t' :: ts) (without rels y fs) (d && negb (is_direct y)) l' Hl') as [H1 H2]. pose proof (proj1 (plain_incl (t' :: ts) (without rels y fs) (d && negb (is_direct y)) l' Hl')) as Hi.
      assert (forall x, In x l' -> In x fs /\ funique x <> funique y) as Hin. { intros x Hx. apply Hi in Hx. apply filter_In in Hx as [Hx Hn]. split; [exact Hx|]. intros E. rewrite E, String.eqb_refl in Hn. discriminate. }
      split; [|constructor; [exact Hy | exact H1]]. rewrite (dedup_named e).
      + etransitivity; [symmetry; apply ordF_perm | symmetry; apply isort_perm].
      + intros f [<-|Hf]; [apply He; exact Hyf | apply He, Hin; exact Hf].
      + intros f [].
      + cbn [map]. constructor; [|exact H2]. intros Hx. apply in_map_iff in Hx as (x & E & Hx). exact (proj2 (Hin x Hx) E).
      + intros f g _ [].
  Qed.

  (** ** Exactness, for a pool of features of one entity with distinct names *)
  Section Pool.
  Variable e : string.
  Variable fs0 : list feat.
  Hypothesis Hent : forall f, In f fs0 -> fentity f = e.
  Hypothesis Hnames : forall f g, In f fs0 -> In g fs0 -> fname f = fname g -> f = g.

  Lemma app_head_inj (a b c : string) : (c ++ a = c ++ b)%string -> a = b.
  Proof. induction c as [|x c IH]; cbn; [auto | intros [= H]; auto]. Qed.
  Lemma key_pool f g : In f fs0 -> In g fs0 -> fkey rels f = fkey rels g -> f = g.
  Proof. intros Hf Hg. unfold fkey. rewrite (Hent f Hf), (Hent g Hg). intros H. apply app_tail_inj in H. auto. Qed.
  Lemma unique_pool f g : In f fs0 -> In g fs0 -> funique f = funique g -> f = g.
  Proof. intros Hf Hg. unfold M_Feature.funique. rewrite (Hent f Hf), (Hent g Hg). intros H. apply app_head_inj in H. injection H as H. auto. Qed.
  Lemma map_key_pool a b : incl a fs0 -> incl b fs0 -> map (fkey rels) a = map (fkey rels) b -> a = b.
  Proof.
    revert b. induction a as [|x a IH]; intros [|y b] Ha Hb; cbn [map]; try discriminate; [reflexivity|]. intros [= H1 H2].
    f_equal; [apply key_pool; [apply Ha; left; reflexivity | apply Hb; left; reflexivity | exact H1] | apply IH; [intros z Hz; apply Ha; right; exact Hz | intros z Hz; apply Hb; right; exact Hz | exact H2]].
  Qed.
  Lemma tuple_eq_pool a b : incl a fs0 -> incl b fs0 -> tuple_eq rels a b = true <-> a = b.
  Proof. intros Ha Hb. unfold tuple_eq. rewrite (list_eqb_map _ (fkey rels)) by reflexivity. split; [apply map_key_pool; assumption | intros ->; reflexivity]. Qed.
  Lemma without_In m fs x : In m fs0 -> incl fs fs0 -> In x (without rels m fs) <-> In x fs /\ x <> m.
  Proof.
    intros Hm Hi. unfold without. rewrite filter_In, negb_true_iff, String.eqb_neq. split; intros [H1 H2]; split; try exact H1; [intros ->; apply H2; reflexivity | intros H; apply H2, unique_pool; auto].
  Qed.
  Lemma tuple_refl a : tuple_eq rels a a = true.
  Proof. apply (list_eqb_map _ (fkey rels)); reflexivity. Qed.
  Lemma tuple_sym a b : tuple_eq rels a b = tuple_eq rels b a.
  Proof. destruct (tuple_eq rels a b) eqn:E1, (tuple_eq rels b a) eqn:E2; try reflexivity; [apply (list_eqb_map _ (fkey rels)) in E1; [|reflexivity]; assert (tuple_eq rels b a = true) by (apply (list_eqb_map _ (fkey rels)); [reflexivity | symmetry; exact E1]); congruence | apply (list_eqb_map _ (fkey rels)) in E2; [|reflexivity]; assert (tuple_eq rels a b = true) by (apply (list_eqb_map _ (fkey rels)); [reflexivity | symmetry; exact E2]); congruence]. Qed.
  Lemma dedup_tuples l : (forall a, In a l -> incl a fs0) -> NoDup (dedup_by (tuple_eq rels) [] l) /\ (forall a, In a (dedup_by (tuple_eq rels) [] l) <-> In a l).
  Proof.
    intros Hl. split; [apply dedup_distinct; [intros a _; apply tuple_refl | apply tuple_sym]|]. intros a. split; [apply dedup_incl|]. intros Ha. destruct (dedup_cover (tuple_eq rels) [] l a Ha) as (b & [[]|Hb] & [->|E]); [exact Hb|].
    apply tuple_eq_pool in E; [subst; exact Hb | apply Hl; exact Ha | apply Hl; apply dedup_incl in Hb; exact Hb].
  Qed.

  Lemma plain_exact ts : ts <> [] -> forall fs d, incl fs fs0 -> NoDup fs ->
    NoDup (match_plain ts fs d) /\ forall m, In m (match_plain ts fs d) <-> choice ts fs m /\ (d = true -> existsb is_direct m = true).
  Proof.
    induction ts as [|t ts IH]; [congruence|]. intros _ fs d Hi Hn. destruct ts as [|t' ts'].
    - cbn [M_Match.match_plain]. split.
      + apply FinFun.Injective_map_NoDup; [intros x y [=]; assumption | apply NoDup_filter, NoDup_filter; exact Hn].
      + intros m. rewrite in_map_iff. split.
        * intros (x & <- & Hx). apply filter_In in Hx as [Hx Hd]. apply filter_In in Hx as [Hx Ht]. split; [|intros ->; cbn in *; rewrite Hd; reflexivity].
          split; [intros y [<-|[]]; exact Hx|]. split; [constructor; [intros [] | constructor] | constructor; [exact Ht | constructor]].
        * intros [(H1 & H2 & H3) Hd]. inversion H3 as [|x ? m' ? Ht Hm]; subst. inversion Hm; subst. exists x. split; [reflexivity|]. apply filter_In. split; [apply filter_In; split; [apply H1; left; reflexivity | exact Ht]|].
          destruct d; [|reflexivity]. specialize (Hd eq_refl). cbn in Hd. rewrite orb_false_r in Hd. exact Hd.
    - change (match_plain (t :: t' :: ts') fs d) with (dedup_by (tuple_eq rels) [] (flat_map (fun m => map (cons m) (match_plain (t' :: ts') (without rels m fs) (d && negb (is_direct m)))) (match_by_type p_ret vtypes fs t))).
      set (l := flat_map _ _). assert (forall a, In a l -> incl a fs0) as Hl.
      { intros a Ha. apply in_flat_map in Ha as (x & Hx & Ha). apply in_map_iff in Ha as (m' & <- & Hm'). apply filter_In in Hx as [Hx _]. intros y [<-|Hy]; [apply Hi; exact Hx|]. apply (plain_incl _ _ _ _ Hm') in Hy. apply filter_In in Hy as [Hy _]. apply Hi; exact Hy. }
      destruct (dedup_tuples l Hl) as [Hnd Hin]. split; [exact Hnd|]. intros m. rewrite Hin. subst l. rewrite in_flat_map.
      assert (forall x, In x fs -> incl (without rels x fs) fs0 /\ NoDup (without rels x fs)) as Hw.
      { intros x Hx. split; [intros y Hy; apply filter_In in Hy as [Hy _]; apply Hi; exact Hy | apply NoDup_filter; exact Hn]. }
      split.
      + intros (x & Hx & Hm). apply in_map_iff in Hm as (m' & <- & Hm'). apply filter_In in Hx as [Hx Ht]. destruct (Hw x Hx) as [Hw1 Hw2].
        apply (IH ltac:(discriminate) _ _ Hw1 Hw2) in Hm' as [(H1 & H2 & H3) Hd]. split.
        * split; [intros y [<-|Hy]; [exact Hx|]; apply H1 in Hy; apply filter_In in Hy; tauto|]. split; [constructor; [|exact H2]; intros Hxm; apply H1 in Hxm; apply without_In in Hxm as [_ Hxm]; [congruence | apply Hi; exact Hx | exact Hi] | constructor; [exact Ht | exact H3]].
        * intros ->. cbn [existsb andb] in *. destruct (is_direct x); [reflexivity | apply Hd; reflexivity].
      + intros [(H1 & H2 & H3) Hd]. inversion H3 as [|x ? m' ? Ht Hm]; subst. assert (In x fs) as Hx by (apply H1; left; reflexivity). exists x. split; [apply filter_In; split; [exact Hx | exact Ht]|].
        apply in_map_iff. exists m'. split; [reflexivity|]. destruct (Hw x Hx) as [Hw1 Hw2]. apply (IH ltac:(discriminate) _ _ Hw1 Hw2). inversion H2 as [|? ? Hnx Hnm]; subst. split.
        * split; [|split; [exact Hnm | exact Hm]]. intros y Hy. apply without_In; [apply Hi; exact Hx | exact Hi|]. split; [apply H1; right; exact Hy | intros ->; contradiction].
        * intros Hdx. apply andb_true_iff in Hdx as [Hd1 Hd2]. specialize (Hd Hd1). cbn [existsb] in Hd. apply negb_true_iff in Hd2. rewrite Hd2 in Hd. exact Hd.
  Qed.

  (** frozensets of pool features *)
  Lemma feq_pool a b : In a fs0 -> In b fs0 -> feq a b = true <-> a = b.
  Proof. intros Ha Hb. unfold M_Match.feq. rewrite String.eqb_eq. split; [apply key_pool; assumption | intros ->; reflexivity]. Qed.
  Lemma dedup_pool_id l seen : incl l fs0 -> incl seen fs0 -> NoDup l -> (forall x, In x l -> ~ In x seen) -> dedup_by feq seen l = l.
  Proof.
    revert seen. induction l as [|x l IH]; intros seen Hl Hs Hn Hd; [reflexivity|]. cbn [dedup_by]. assert (existsb (feq x) seen = false) as ->.
    { apply not_true_is_false. intros H. apply existsb_exists in H as (y & Hy & H). apply feq_pool in H; [subst; apply (Hd y (or_introl eq_refl) Hy) | apply Hl; left; reflexivity | apply Hs; exact Hy]. }
    inversion Hn; subst. f_equal. apply IH; [intros y Hy; apply Hl; right; exact Hy | intros y [<-|Hy]; [apply Hl; left; reflexivity | apply Hs; exact Hy] | assumption|].
    intros y Hy [<-|Hy']; [contradiction | apply (Hd y (or_intror Hy) Hy')].
  Qed.
  Lemma set_eq_pool a b : incl a fs0 -> incl b fs0 -> NoDup a -> NoDup b -> set_eq rels a b = true <-> Permutation a b.
  Proof.
    intros Ha Hb Hna Hnb. unfold set_eq. rewrite andb_true_iff, Nat.eqb_eq, forallb_forall. split.
    - intros [Hl H]. apply NoDup_Permutation_bis; [exact Hna | lia|]. intros x Hx. specialize (H x Hx). apply existsb_exists in H as (y & Hy & H). apply feq_pool in H; [subst; exact Hy | apply Ha; exact Hx | apply Hb; exact Hy].
    - intros H. split; [apply Permutation_length; exact H|]. intros x Hx. apply existsb_exists. exists x. split; [eapply Permutation_in; eauto | apply feq_pool; [apply Ha; exact Hx | apply Ha; exact Hx | reflexivity]].
  Qed.
  End Pool.

  (** *** C30: ordered primitives get exactly the choices of distinct features of the right types, each once *)
  Theorem C30_match_exact e fs ts direct : ts <> [] -> NoDup fs -> (forall f, In f fs -> fentity f = e) -> (forall f g, In f fs -> In g fs -> fname f = fname g -> f = g) ->
    exists ms, match_inputs ts fs false direct = Ok ms /\ NoDup ms /\
      forall m, In m ms <-> choice ts fs m /\ (direct = true -> exists f, In f m /\ is_direct f = true).
  Proof.
    intros Ht Hn He Hm. exists (match_plain ts fs direct). split; [destruct ts as [|t [|t' ts]]; [contradiction | reflexivity | reflexivity]|].
    destruct (plain_exact e fs He Hm ts Ht fs direct (incl_refl _) Hn) as [H1 H2]. split; [exact H1|]. intros m. rewrite H2. split; intros [Hc Hd]; (split; [exact Hc|]); intros Hdd; specialize (Hd Hdd).
    - apply existsb_exists in Hd. exact Hd.
    - apply existsb_exists. exact Hd.
  Qed.

  (** *** C30: commutative primitives get one ordering, the one sorted by name, of every choice *)
  Theorem C30_commutative e fs ts direct : 2 <= List.length ts -> NoDup fs -> (forall f, In f fs -> fentity f = e) -> (forall f g, In f fs -> In g fs -> fname f = fname g -> f = g) ->
    exists ms, match_inputs ts fs true direct = Ok ms /\ NoDup ms /\
      (forall m, In m ms -> exists t, Permutation m t /\ choice ts fs t /\ (direct = true -> exists f, In f t /\ is_direct f = true)) /\
      (forall t, choice ts fs t -> (direct = true -> exists f, In f t /\ is_direct f = true) -> exists m, In m ms /\ Permutation m t /\ forall m', In m' ms -> Permutation m' t -> m' = m) /\
      (forall m, In m ms -> StronglySorted (fun a b => str_leb (lower (fname a)) (lower (fname b)) = true) m).
  Proof.
    intros Ht Hn He Hm. destruct ts as [|t [|t' ts]]; [cbn in Ht; lia | cbn in Ht; lia|]. cbn [M_Match.match_inputs].
    set (l := flat_map _ _). set (sets := dedup_by (set_eq rels) [] _).
    assert (forall x, In x l <-> choice (t :: t' :: ts) fs x /\ (direct = true -> existsb is_direct x = true)) as Hl.
    { destruct (plain_exact e fs He Hm (t :: t' :: ts) ltac:(discriminate) fs direct (incl_refl _) Hn) as [_ H]. intros x. rewrite <- (H x).
      change (match_plain (t :: t' :: ts) fs direct) with (dedup_by (tuple_eq rels) [] l). assert (forall a, In a l -> incl a fs) as Hi.
      { intros a Ha. subst l. apply in_flat_map in Ha as (y & Hy & Ha). apply in_map_iff in Ha as (m' & <- & Hm'). apply filter_In in Hy as [Hy _]. intros z [<-|Hz]; [exact Hy|]. apply (plain_incl (t' :: ts) (without rels y fs) (direct && negb (is_direct y)) m' Hm') in Hz. apply filter_In in Hz. tauto. }
      symmetry. apply (dedup_tuples e fs He Hm l Hi). }
    assert (forall x, In x l -> incl x fs /\ NoDup x) as Hl2 by (intros x Hx; apply Hl in Hx as [(H1 & H2 & _) _]; auto).
    assert (map (dedup_by feq []) l = l) as El.
    { rewrite <- (map_id l) at 2. apply map_ext_in. intros x Hx. destruct (Hl2 x Hx). apply (dedup_pool_id e fs He Hm); [assumption | intros y [] | assumption | intros y _ []]. }
    assert (NoDup sets /\ (forall x, In x sets -> In x l) /\ (forall x, In x l -> exists y, In y sets /\ Permutation x y) /\ (forall x y, In x sets -> In y sets -> Permutation x y -> x = y)) as (Hs1 & Hs2 & Hs3 & Hs4).
    { subst sets. rewrite El. assert (forall x, In x (dedup_by (set_eq rels) [] l) -> In x l) as Hi by (intros x; apply dedup_incl).
      assert (forall ll seen, (forall x, In x ll -> In x l) -> (forall x, In x seen -> In x l) -> NoDup (dedup_by (set_eq rels) seen ll) /\ (forall a b, In a (dedup_by (set_eq rels) seen ll) -> In b (dedup_by (set_eq rels) seen ll) -> Permutation a b -> a = b)) as HD.
      { induction ll as [|c ll IH]; intros seen Hll Hse; cbn [dedup_by]; [split; [constructor | contradiction]|]. destruct (existsb (set_eq rels c) seen); [apply IH; [intros x Hx; apply Hll; right; exact Hx | exact Hse]|].
        destruct (IH (c :: seen)) as [H1 H2]; [intros x Hx; apply Hll; right; exact Hx | intros x [<-|Hx]; [apply Hll; left; reflexivity | apply Hse; exact Hx]|].
        assert (forall a, In a (dedup_by (set_eq rels) (c :: seen) ll) -> ~ Permutation a c) as Hac.
        { intros a Ha Hp. pose proof (dedup_seen _ _ _ _ Ha c (or_introl eq_refl)) as E. assert (In a l) as Hal by (apply Hll; right; eapply dedup_incl; eauto). assert (In c l) as Hcl by (apply Hll; left; reflexivity).
          destruct (Hl2 a Hal), (Hl2 c Hcl). apply (set_eq_pool e fs He Hm) in Hp; try assumption. congruence. }
        split; [constructor; [intros Hc; apply (Hac c Hc); reflexivity | exact H1]|]. intros a b [<-|Ha] [<-|Hb] Hp; [reflexivity | exfalso; apply (Hac b Hb); symmetry; exact Hp | exfalso; apply (Hac a Ha); exact Hp | apply H2; assumption]. }
      destruct (HD l [] (fun x Hx => Hx) (fun x Hx => match Hx with end)) as [H1 H2]. split; [exact H1|]. split; [exact Hi|]. split; [|exact H2].
      intros x Hx. destruct (dedup_cover (set_eq rels) [] l x Hx) as (y & [[]|Hy] & [->|E]); [exists y; auto|]. exists y. split; [exact Hy|]. destruct (Hl2 x Hx), (Hl2 y (Hi y Hy)). apply (set_eq_pool e fs He Hm) in E; assumption. }
    set (srt := fun s => isort (name_leb rels lower) (ordF s)).
    assert (forall s, Permutation (srt s) s) as Hsrt by (intros s; unfold srt; rewrite isort_perm; apply ordF_perm).
    assert (NoDup (map srt sets)) as Hn1.
    { clear - Hs1 Hs4 Hsrt. revert Hs4. induction Hs1 as [|x ll Hx Hnl IH]; intros Hs4; cbn [map]; [constructor|]. constructor; [|apply IH; intros; apply Hs4; [right; assumption | right; assumption | assumption]].
      rewrite in_map_iff. intros (y & Ey & Hy). apply Hx. assert (x = y) as ->; [|exact Hy]. apply Hs4; [left; reflexivity | right; exact Hy|]. rewrite <- (Hsrt x), <- Ey. apply Hsrt. }
    assert (forall a, In a (map srt sets) -> incl a fs) as Hi2.
    { intros a Ha. apply in_map_iff in Ha as (s & <- & Hs). intros x Hx. apply (Permutation_in _ (Hsrt s)) in Hx. apply (Hl2 s (Hs2 s Hs)); exact Hx. }
    destruct (dedup_tuples e fs He Hm (map srt sets) Hi2) as [Hd1 Hd2].
    exists (dedup_by (tuple_eq rels) [] (map srt sets)). split; [reflexivity|]. split; [exact Hd1|]. split; [|split].
    - intros m Hm'. apply Hd2, in_map_iff in Hm' as (s & <- & Hs). exists s. split; [apply Hsrt|]. pose proof (proj1 (Hl s) (Hs2 s Hs)) as [Hc Hd]. split; [exact Hc|]. intros Hdd. apply existsb_exists, Hd, Hdd.
    - intros x Hc Hd. assert (In x l) as Hx by (apply Hl; split; [exact Hc | intros Hdd; apply existsb_exists, Hd, Hdd]). destruct (Hs3 x Hx) as (y & Hy & Hp). exists (srt y). split; [apply Hd2, in_map; exact Hy|]. split; [rewrite Hsrt; symmetry; exact Hp|].
      intros m' Hm' Hp'. apply Hd2, in_map_iff in Hm' as (z & <- & Hz). f_equal. apply Hs4; [exact Hz | exact Hy|]. rewrite <- (Hsrt z), Hp', Hp. reflexivity.
    - intros m Hm'. apply Hd2, in_map_iff in Hm' as (s & <- & Hs). apply isort_sorted; unfold name_leb; [intros; apply str_leb_total | intros a b c; apply str_leb_trans].
  Qed.

  Lemma Forall2_perm_const {A B} (R : A -> B -> Prop) (y : B) l l' n : Permutation l l' -> Forall2 R l (repeat y n) -> Forall2 R l' (repeat y n).
  Proof.
    intros Hp H. assert (Forall (fun x => R x y) l /\ List.length l = n) as [H1 H2].
    { clear Hp. revert n H. induction l as [|x l IH]; intros [|n] H; inversion H; subst; [split; [constructor | reflexivity]|]. destruct (IH n) as [? <-]; [assumption|]. split; [constructor; assumption | reflexivity]. }
    assert (Forall (fun x => R x y) l') as H3 by (eapply Permutation_Forall; eauto). apply Permutation_length in Hp. rewrite Hp in H2. subst n. clear - H3. induction H3; cbn; constructor; assumption.
  Qed.
  (** when all inputs have the same type, as for every commutative primitive of the library, the chosen order is again well typed *)
  Theorem C30_commutative_typed e fs ty n direct : NoDup fs -> (forall f, In f fs -> fentity f = e) -> (forall f g, In f fs -> In g fs -> fname f = fname g -> f = g) ->
    forall ms m, match_inputs (repeat ty (S (S n))) fs true direct = Ok ms -> In m ms -> choice (repeat ty (S (S n))) fs m.
  Proof.
    intros Hn He Hm ms m Hms Hin. destruct (C30_commutative e fs (repeat ty (S (S n))) direct ltac:(cbn [repeat List.length]; lia) Hn He Hm) as (ms' & E & _ & H & _). rewrite Hms in E. injection E as <-.
    destruct (H m Hin) as (t & Hp & (H1 & H2 & H3) & _). split; [intros x Hx; apply H1; eapply Permutation_in; eauto|]. split; [eapply Permutation_NoDup; [symmetry; exact Hp | exact H2]|]. eapply Forall2_perm_const; [symmetry; exact Hp | exact H3].
  Qed.
End Match.

(** ** C31 *)
Lemma picks_perm {A} (l : list A) x r : In (x, r) (picks l) -> Permutation (x :: r) l.
Proof.
  revert x r. induction l as [|y l IH]; intros x r; cbn [picks]; [contradiction|]. intros [[= -> ->]|H]; [reflexivity|]. apply in_map_iff in H as ([x' r'] & [= -> <-] & H). cbn [fst snd] in *.
  apply IH in H. rewrite perm_swap. constructor. exact H.
Qed.
Lemma picks_In {A} (l : list A) x : In x l -> exists r, In (x, r) (picks l).
Proof. induction l as [|y l IH]; [contradiction|]. cbn [picks]. intros [->|H]; [exists l; left; reflexivity|]. destruct (IH H) as [r Hr]. exists (y :: r). right. apply in_map_iff. exists (x, r). auto. Qed.
Lemma perms_In {A} n (l p : list A) : List.length l = n -> In p (perms_n n l) <-> Permutation p l.
Proof.
  revert l p. induction n as [|n IH]; intros l p Hl; cbn [perms_n].
  - destruct l; [|discriminate]. cbn [In]. split; [intros [<-|[]]; constructor | intros H; left; symmetry; apply Permutation_nil; symmetry; exact H].
  - rewrite in_flat_map. split.
    + intros ([x r] & Hx & Hp). apply in_map_iff in Hp as (q & <- & Hq). cbn [fst snd] in *. apply picks_perm in Hx. assert (List.length r = n) as Hr by (apply Permutation_length in Hx; cbn in Hx; lia). apply (IH r q Hr) in Hq. rewrite Hq. exact Hx.
    + intros Hp. destruct p as [|x q]; [apply Permutation_length in Hp; cbn in Hp; lia|]. assert (In x l) as Hx by (eapply Permutation_in; [exact Hp | left; reflexivity]). destruct (picks_In l x Hx) as [r Hr]. pose proof (picks_perm _ _ _ Hr) as Hpr.
      exists (x, r). split; [exact Hr|]. apply in_map_iff. exists q. split; [reflexivity|]. cbn [snd]. apply (IH r q); [apply Permutation_length in Hpr; cbn in Hpr; lia|]. apply Permutation_cons_inv with x. rewrite Hp, Hpr. reflexivity.
Qed.
Lemma permutations_In {A} (l p : list A) : In p (permutations l) <-> Permutation p l.
Proof. apply perms_In. reflexivity. Qed.

Section Filter.
  Variable rels : list relationship.
  Variable p_ret : prim -> option vtyp.
  Variable vtypes : string -> string -> option vtyp.
  Notation fname := (fname rels).
  Notation funique := (funique rels).
  Notation passes := (passes rels).
  Notation all_pass := (all_pass rels).
  Notation variable_filter := (variable_filter rels p_ret vtypes).
  Notation is_valid_match := (is_valid_match rels p_ret vtypes).
  Notation filter_matches_by_options := (filter_matches_by_options rels p_ret vtypes).

  Lemma entity_passes_spec inc ign e : entity_passes inc ign e <->
    (match inc with Some l => mem_str e l && negb (opt_mem e ign) | None => negb (opt_mem e ign) end) = true.
  Proof.
    assert ((forall l, ign = Some l -> ~ In e l) <-> negb (opt_mem e ign) = true) as Hi.
    { rewrite negb_true_iff. destruct ign as [l|]; cbn [opt_mem]; [|split; [reflexivity | discriminate]]. split; [intros H; apply mem_str_nIn, H; reflexivity | intros H l' [= <-]; apply mem_str_nIn; exact H]. }
    unfold entity_passes. rewrite Hi. destruct inc as [l|]; [rewrite andb_true_iff, mem_str_In; split; [intros [H ->]; split; [apply H; reflexivity | reflexivity] | intros [H ->]; split; [intros l' [= <-]; exact H | reflexivity]]|].
    split; [intros [_ H]; exact H | intros H; split; [discriminate | exact H]].
  Qed.
  Lemma dep_ok_spec inc_v ign_v inc_e ign_e d : dep_ok rels inc_v ign_v inc_e ign_e d = true <-> dep_passes rels (entity_passes inc_e ign_e) inc_v ign_v d.
  Proof.
    destruct d as [e v nm|r b nm|p bs path u w pr nm|p bs nm|p bs g nm|b n nm]; unfold dep_ok; cbn [fentity dep_passes]; try (symmetry; apply entity_passes_spec).
    destruct (match inc_v with Some i => dget String.eqb e i | None => None end) as [vs|] eqn:Ei.
    - destruct inc_v as [i|]; [|discriminate]. rewrite mem_str_In. split; [intros H; left; exists i, vs; auto | intros [(i' & vs' & [= <-] & E & H)|[H _]]; [congruence | specialize (H i eq_refl); congruence]].
    - assert (forall i, inc_v = Some i -> dget String.eqb e i = None) as Hn by (intros i ->; exact Ei).
      set (ig := opt_mem (fname (FIdent e v nm)) (match ign_v with Some i => dget String.eqb e i | None => None end)).
      assert (ig = false <-> forall i vs, ign_v = Some i -> dget String.eqb e i = Some vs -> ~ In (fname (FIdent e v nm)) vs) as Hg.
      { subst ig. destruct ign_v as [i|]; [|split; [discriminate | reflexivity]]. destruct (dget String.eqb e i) as [vs|] eqn:E; cbn [opt_mem]; [|split; [intros _ i' vs' [= <-] E'; congruence | reflexivity]].
        rewrite mem_str_nIn. split; [intros H i' vs' [= <-] E'; congruence | intros H; apply (H i vs eq_refl E)]. }
      destruct ig.
      + split; [discriminate|]. intros [(i & vs & -> & E & _)|(_ & H & _)]; [cbn in Ei; congruence | apply Hg in H; discriminate].
      + rewrite <- entity_passes_spec. split; [intros H; right; split; [exact Hn|]; split; [apply Hg; reflexivity | exact H] | intros [(i & vs & -> & E & _)|(_ & _ & H)]; [cbn in Ei; congruence | exact H]].
  Qed.
  Lemma all_reached f (P : feat -> bool) (Q : feat -> Prop) : (forall d, P d = true <-> Q d) -> forallb P (deep_deps rels [] f ++ [f]) = true <-> forall d, reaches f d -> Q d.
  Proof.
    intros H. rewrite forallb_forall. split; intros Ha d Hd.
    - apply H, Ha, in_or_app. apply (reaches_cases rels) in Hd as [->|Hd]; [right; left; reflexivity | left; exact Hd].
    - apply H, Ha, (reaches_cases rels). apply in_app_or in Hd as [Hd|[<-|[]]]; [right; exact Hd | left; reflexivity].
  Qed.
  (** *** A feature is accepted for an input exactly when it and everything it is built from pass the options *)
  Theorem C31_input f o : variable_filter f o false = true <-> passes o f.
  Proof. unfold M_Match.variable_filter. cbn [andb]. apply all_reached. intros d. apply dep_ok_spec. Qed.
  Theorem C31_groupby f o : variable_filter f o true = true <-> issub (ftype p_ret vtypes f) YDiscrete = true /\ passes_group rels o f.
  Proof.
    unfold M_Match.variable_filter. cbn [andb]. destruct (issub (ftype p_ret vtypes f) YDiscrete); cbn [negb]; [|split; [discriminate | intros [? _]; discriminate]].
    rewrite (all_reached f _ _ (dep_ok_spec _ _ _ _)). unfold passes_group. tauto.
  Qed.
  Lemma zip_spec m os : zip_ok rels p_ret vtypes m os false = true <-> forall i f o, nth_error m i = Some f -> nth_error os i = Some o -> passes o f.
  Proof.
    revert os. induction m as [|f m IH]; intros [|o os]; cbn [zip_ok]; try (split; [intros _ [|i] f' o'; cbn; discriminate | reflexivity]).
    rewrite andb_true_iff, C31_input, IH. split.
    - intros [H1 H2] [|i] f' o'; cbn [nth_error]; [intros [= <-] [= <-]; exact H1 | apply H2].
    - intros H. split; [apply (H 0); reflexivity | intros i f' o' Hf Ho; apply (H (S i)); assumption].
  Qed.
  Lemma valid_spec os m : os <> [] -> is_valid_match os false m = true <-> all_pass os m.
  Proof.
    intros Hne. destruct os as [|o [|o' os]]; [contradiction| |].
    - cbn [M_Match.is_valid_match S_Match.all_pass]. rewrite forallb_forall. split; intros H f Hf; apply C31_input, H; exact Hf.
    - cbn [M_Match.is_valid_match S_Match.all_pass]. apply zip_spec.
  Qed.

  (** *** The input tuples kept are those that pass; for a commutative primitive a tuple is replaced by an ordering that passes *)
  Theorem C31_tuples ms os comm : os <> [] -> exists kept, filter_matches_by_options ms os false comm = Ok kept /\
    (forall t, In t kept -> all_pass os t /\ exists m, In m ms /\ (t = m \/ (comm = true /\ Permutation t m))) /\
    (forall m, In m ms -> all_pass os m -> exists t, In t kept /\ map (fkey rels) t = map (fkey rels) m) /\
    (forall m t, In m ms -> comm = true -> Permutation t m -> all_pass os t -> exists t', In t' kept /\ Permutation (map (fkey rels) t') (map (fkey rels) m)).
  Proof.
    intros Hne. set (ch := flat_map (choose_match rels p_ret vtypes os false comm) ms). exists (isort (match_leb rels) (dedup_by (tuple_eq rels) [] ch)).
    split; [unfold M_Match.filter_matches_by_options; destruct ms, os; try contradiction; reflexivity|].
    assert (forall t, In t (isort (match_leb rels) (dedup_by (tuple_eq rels) [] ch)) <-> In t (dedup_by (tuple_eq rels) [] ch)) as Hs.
    { intros t. split; intros H; eapply Permutation_in; try exact H; [apply isort_perm | symmetry; apply isort_perm]. }
    assert (forall t, In t ch -> exists t', In t' (isort (match_leb rels) (dedup_by (tuple_eq rels) [] ch)) /\ map (fkey rels) t' = map (fkey rels) t) as Hc.
    { intros t Ht. destruct (dedup_cover (tuple_eq rels) [] ch t Ht) as (b & [[]|Hb] & [->|E]); [exists b; split; [apply Hs; exact Hb | reflexivity]|].
      exists b. split; [apply Hs; exact Hb|]. symmetry. apply (list_eqb_map (feq rels) (fkey rels)); [reflexivity | exact E]. }
    split; [|split].
    - intros t Ht. apply Hs, dedup_incl in Ht. apply in_flat_map in Ht as (m & Hm & Ht). unfold choose_match in Ht. destruct (is_valid_match os false m) eqn:Ev.
      + destruct Ht as [<-|[]]. split; [apply valid_spec; assumption | exists m; auto].
      + destruct comm; [|contradiction]. destruct (find (is_valid_match os false) (permutations m)) as [o|] eqn:Ef; [|contradiction]. destruct Ht as [<-|[]]. apply find_some in Ef as [H1 H2]. split; [apply valid_spec; assumption|]. exists m. split; [exact Hm|]. right. split; [reflexivity|]. apply permutations_In. exact H1.
    - intros m Hm Hp. apply Hc. apply in_flat_map. exists m. split; [exact Hm|]. unfold choose_match. apply valid_spec in Hp; [|exact Hne]. rewrite Hp. left. reflexivity.
    - intros m t Hm -> Hp Ha. apply valid_spec in Ha; [|exact Hne]. assert (exists x, In x (choose_match rels p_ret vtypes os false true m) /\ Permutation x m) as (x & Hx & Hxm).
      { unfold choose_match. destruct (is_valid_match os false m); [exists m; split; [left; reflexivity | reflexivity]|]. destruct (find (is_valid_match os false) (permutations m)) as [o|] eqn:Ef.
        - apply find_some in Ef as [H1 _]. exists o. split; [left; reflexivity | apply permutations_In; exact H1].
        - exfalso. pose proof (find_none _ _ Ef t (proj2 (permutations_In m t) Hp)) as Hf. cbn beta in Hf. congruence. }
      destruct (Hc x) as (t' & Ht' & E); [apply in_flat_map; exists m; auto|]. exists t'. split; [exact Ht'|]. rewrite E. apply Permutation_map. exact Hxm.
  Qed.

  (** include_entities takes priority as documented as long as no entity is in both lists *)
  Theorem C31_documented_partial o f : (forall l e, o_inc_e o = Some l -> In e l -> ~ In e (o_ign_e o)) -> passes o f <-> passes_doc rels o f.
  Proof.
    intros Hd. unfold S_Match.passes, passes_doc. assert (forall e, entity_passes (o_inc_e o) (Some (o_ign_e o)) e <-> entity_passes_doc (o_inc_e o) (Some (o_ign_e o)) e) as He.
    { intros e. unfold entity_passes, entity_passes_doc. destruct (o_inc_e o) as [l|] eqn:E; [|split; [intros [_ H]; exact H | intros H; split; [discriminate | exact H]]].
      split; [intros [H _]; apply H; reflexivity | intros H; split; [intros l' [= <-]; exact H | intros l' [= <-]; apply (Hd l e eq_refl H)]]. }
    split; intros H d Hr; specialize (H d Hr); unfold dep_passes in *; destruct d; try (apply He; exact H); (destruct H as [H|(H1 & H2 & H3)]; [left; exact H | right; split; [exact H1|]; split; [exact H2 | apply He; exact H3]]).
  Qed.

  (** *** A primitive skips an entity altogether exactly when some input may not use it *)
  Theorem C31_entity os e : ignore_entity_for_primitive os e false = false <->
    forall o, In o os -> has_key e (o_inc_v o) = true \/ entity_passes (o_inc_e o) (Some (o_ign_e o)) e.
  Proof.
    unfold ignore_entity_for_primitive. assert (forall o, should_ignore_entity e false o = false <-> has_key e (o_inc_v o) = true \/ entity_passes (o_inc_e o) (Some (o_ign_e o)) e) as Hone.
    { intros o. unfold should_ignore_entity. cbn [andb]. rewrite entity_passes_spec. destruct (has_key e (o_inc_v o)); [tauto|]. destruct (o_inc_e o) as [l|]; cbn [opt_mem]; [destruct (mem_str e l); cbn [negb andb]|]; destruct (mem_str e (o_ign_e o)); cbn [negb]; intuition discriminate. }
    split.
    - intros H o Ho. apply Hone. apply not_true_is_false. intros E. assert (existsb (should_ignore_entity e false) os = true) by (apply existsb_exists; exists o; auto). congruence.
    - intros H. apply not_true_is_false. intros E. apply existsb_exists in E as (o & Ho & E). specialize (H o Ho). apply Hone in H. congruence.
  Qed.
End Filter.

(** ** Concrete cases *)
Definition my_types (e v : string) : option vtyp := dget String.eqb v [("a_flag", YBoolean); ("n1", YNumeric); ("n2", YNumeric); ("z_num", YNumeric)].
Definition i_flag := FIdent "e" "a_flag" None.
Definition i_n1 := FIdent "e" "n1" None.
Definition i_n2 := FIdent "e" "n2" None.
Definition i_z := FIdent "e" "z_num" None.
Definition my_pool := [i_flag; i_n1; i_n2; i_z].
Example C30_nonvacuous :
  NoDup my_pool /\ (forall f, In f my_pool -> fentity f = "e") /\ (forall f g, In f my_pool -> In g my_pool -> fname [] f = fname [] g -> f = g) /\
  match_inputs [] (fun _ => None) my_types (fun s => s) (fun l => l) [YNumeric; YNumeric] my_pool false false = Ok [[i_n1; i_n2]; [i_n1; i_z]; [i_n2; i_n1]; [i_n2; i_z]; [i_z; i_n1]; [i_z; i_n2]] /\
  match_inputs [] (fun _ => None) my_types (fun s => s) (@rev feat) [YNumeric; YNumeric] my_pool true false = Ok [[i_n1; i_n2]; [i_n1; i_z]; [i_n2; i_z]].
Proof.
  split; [repeat (constructor; [cbn; intuition discriminate|]); constructor|]. split; [intros f Hf; cbn in Hf; intuition (subst; reflexivity)|]. split; [|split; vm_compute; reflexivity].
  intros f g Hf Hg. cbn in Hf, Hg. intuition (subst; try reflexivity; discriminate).
Qed.

(** The sorted order of a commutative primitive need not match its signature: with inputs (Numeric, Boolean) the numeric
    z_num and the boolean a_flag are passed as (a_flag, z_num), which the feature's constructor rejects. *)
Definition p_mix : prim := mkPrim "Mix" 1 false false VNull false (fun bs => ("MIX(" ++ String.concat ", " bs ++ ")")%string) (fun _ _ _ _ _ => ""%string) (fun _ cs => [hd [] cs]) (fun _ _ => []).
Theorem C30_commutative_refuted : exists fs t m, NoDup fs /\ choice (fun _ => None) my_types [YNumeric; YBoolean] fs t /\
  match_inputs [] (fun _ => None) my_types (fun s => s) (fun l => l) [YNumeric; YBoolean] fs true false = Ok [m] /\ Permutation m t /\
  ~ choice (fun _ => None) my_types [YNumeric; YBoolean] fs m /\
  M_Serialize.mk_trans (fun _ => None) (fun _ => Some [[YNumeric; YBoolean]]) my_types p_mix t None = Ok (FTrans p_mix t None) /\
  M_Serialize.mk_trans (fun _ => None) (fun _ => Some [[YNumeric; YBoolean]]) my_types p_mix m None = Err AssertionError.
Proof.
  exists [i_flag; i_z], [i_z; i_flag], [i_flag; i_z]. split; [repeat (constructor; [cbn; intuition discriminate|]); constructor|].
  split; [split; [intros x Hx; cbn in *; tauto|]; split; [repeat (constructor; [cbn; intuition discriminate|]); constructor|]; constructor; [reflexivity|]; constructor; [reflexivity | constructor]|].
  split; [vm_compute; reflexivity|]. split; [constructor|]. split; [|split; reflexivity]. intros (_ & _ & H). inversion H as [|? ? ? ? Hf _]; subst. discriminate Hf.
Qed.

(** an entity in both include_entities and ignore_entities is ignored, although the guide says include options always take
    priority over their ignore counterparts *)
Definition both_opt : popt := mkPo (Some ["e"]) ["e"] None [] None None None None.
Theorem C31_priority_refuted : exists o f, passes_doc [] o f /\ variable_filter [] (fun _ => None) my_types f o false = false /\ ignore_entity_for_primitive [o] "e" false = true.
Proof.
  exists both_opt, i_n1. split; [|split; reflexivity]. intros d Hd. apply (reaches_cases []) in Hd as [->|[]]. right. split; [discriminate|]. split; [intros i vs [= <-]; discriminate|]. left. reflexivity.
Qed.
Definition one_opt : popt := mkPo None [] (Some [("e", ["n1"])]) [] None None None None.
Definition two_opt : popt := mkPo None [] None [("e", ["n1"])] None None None None.
Example C31_nonvacuous :
  filter_matches_by_options [] (fun _ => None) my_types [[i_n1; i_n2]; [i_n2; i_z]] [one_opt; two_opt] false false = Ok [[i_n1; i_n2]] /\
  filter_matches_by_options [] (fun _ => None) my_types [[i_n2; i_n1]; [i_n2; i_z]] [one_opt; two_opt] false true = Ok [[i_n1; i_n2]] /\
  (forall l e, o_inc_e one_opt = Some l -> In e l -> ~ In e (o_ign_e one_opt)).
Proof. split; [vm_compute; reflexivity|]. split; [vm_compute; reflexivity | discriminate]. Qed.

Print Assumptions C30_match_exact.
Print Assumptions C30_commutative.
Print Assumptions C30_commutative_typed.
Print Assumptions C31_tuples.
Print Assumptions C31_documented_partial.
Print Assumptions C31_entity.
