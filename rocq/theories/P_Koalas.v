(** C97: cleaning a dataframe for Koalas. *)
From Coq Require Import String Ascii List Bool ZArith.
From Verif Require Import Base BaseFacts M_Koalas S_Koalas.
Import ListNotations.

Lemma mapM_all : forall A B (f : A -> res B) g l, (forall a, In a l -> f a = Ok (g a)) -> mapM f l = Ok (map g l).
Proof.
  intros A B f g l. induction l as [|a l IH]; intros H; [reflexivity|]. cbn [mapM map]. rewrite (H a (or_introl eq_refl)). cbn [bind].
  rewrite IH by (intros b Hb; apply H; right; exact Hb). reflexivity.
Qed.

Definition to_list_cell (x : kcell) : kcell := match x with KTuple xs => KList xs | y => y end.

Lemma flag_items : forall xs, (forall s, ~ In (IText s) xs) -> mapM (flag_item (-1)) xs = Ok (map no_nan xs).
Proof. intros xs H. apply mapM_all. intros [z | | s] Hin; try reflexivity. destruct (H s Hin). Qed.

Lemma flag_numbers : forall x, numbers x -> flag_cell (-1) x = Ok (clean_cell x) /\ flag_cell (-1) (to_list_cell x) = Ok (clean_cell x) /\ to_list x = Ok (to_list_cell x).
Proof. intros x (xs & [-> | ->] & H); cbn [flag_cell clean_cell to_list_cell to_list]; rewrite (flag_items xs H); auto. Qed.

Lemma single_clean : forall x, single x -> clean_cell x = x.
Proof. intros [z | | s | xs | xs] [H1 H2]; try reflexivity; [destruct (H1 xs eq_refl) | destruct (H2 xs eq_refl)]. Qed.

Definition steps (c : kcolumn) : res kcolumn := do c1 <- replace_tuple c; do c2 <- replace_nan (-1) c1; replace_category c2.

Lemma steps_regular : forall c, regular c -> steps c = Ok (mkColumn (k_name c) Plain (map clean_cell (k_cells c))).
Proof.
  intros [n t cells] [Hne H]. cbn [k_name k_dtype k_cells] in *. unfold steps.
  destruct H as [[-> H] | [H Hm]].
  - rewrite Forall_forall in H. destruct cells as [|x r]; [destruct (Hne eq_refl)|].
    assert (Hf : mapM (flag_cell (-1)) (x :: r) = Ok (map clean_cell (x :: r))) by (apply mapM_all; intros a Ha; apply (flag_numbers a (H a Ha))).
    assert (Ht : mapM to_list (x :: r) = Ok (map to_list_cell (x :: r))) by (apply mapM_all; intros a Ha; apply (flag_numbers a (H a Ha))).
    assert (Hft : mapM (flag_cell (-1)) (map to_list_cell (x :: r)) = Ok (map clean_cell (x :: r))).
    { clear Hf Ht Hne. revert H. generalize (x :: r). intros l. induction l as [|a l IH]; intros H; [reflexivity|]. cbn [map mapM].
      destruct (flag_numbers a (H a (or_introl eq_refl))) as (_ & -> & _). cbn [bind]. rewrite IH by (intros b Hb; apply H; right; exact Hb). reflexivity. }
    destruct (H x (or_introl eq_refl)) as (xs & [-> | ->] & _); unfold replace_tuple; cbn [k_cells k_name k_dtype].
    + rewrite Ht. cbn [bind]. unfold replace_nan. cbn [k_cells map to_list_cell k_name]. cbn [map to_list_cell] in Hft. rewrite Hft. reflexivity.
    + cbn [bind]. unfold replace_nan. cbn [k_cells k_name]. rewrite Hf. reflexivity.
  - rewrite Forall_forall in H.
    assert (Hc : map clean_cell cells = cells) by (rewrite <- (map_id cells) at 2; apply map_ext_in; intros a Ha; apply single_clean; exact (H a Ha)).
    rewrite Hc. destruct cells as [|x r]; [destruct (Hne eq_refl)|]. destruct (H x (or_introl eq_refl)) as [H1 H2].
    assert (Hs : replace_tuple (mkColumn n t (x :: r)) = Ok (mkColumn n t (x :: r)) /\ replace_nan (-1) (mkColumn n t (x :: r)) = Ok (mkColumn n t (x :: r))).
    { unfold replace_tuple, replace_nan. cbn [k_cells]. destruct x as [z | | s | xs | xs]; auto; [destruct (H1 xs eq_refl) | destruct (H2 xs eq_refl)]. }
    destruct Hs as [-> Hs]. cbn [bind]. rewrite Hs. cbn [bind]. unfold replace_category. cbn [k_dtype k_cells k_name]. destruct t; [reflexivity| |reflexivity].
    destruct (existsb _ (x :: r)) eqn:Ex; [|reflexivity]. exfalso. apply existsb_exists in Ex. destruct Ex as (y & Hy & Hb).
    apply (Hm eq_refl). destruct y; try discriminate Hb. exact Hy.
Qed.

Lemma clean_steps : forall df df', mapM steps df = Ok df' -> pd_to_ks_clean df = Ok df'.
Proof.
  intros df df' H. apply mapM_Ok_Forall2 in H. unfold pd_to_ks_clean.
  assert (Hx : exists d1 d2, mapM replace_tuple df = Ok d1 /\ mapM (replace_nan (-1)) d1 = Ok d2 /\ mapM replace_category d2 = Ok df').
  { induction H as [|c c' l l' Hc H IH]; [exists [], []; auto|]. destruct IH as (d1 & d2 & E1 & E2 & E3). unfold steps in Hc.
    destruct (replace_tuple c) as [c1|] eqn:F1; [|discriminate Hc]. cbn [bind] in Hc. destruct (replace_nan (-1) c1) as [c2|] eqn:F2; [|discriminate Hc]. cbn [bind] in Hc.
    exists (c1 :: d1), (c2 :: d2). cbn [mapM]. rewrite F1, E1, F2, E2, Hc, E3. auto. }
  destruct Hx as (d1 & d2 & -> & E2 & E3). cbn [bind]. rewrite E2. exact E3.
Qed.

(** C97: regular columns are cleaned cell by cell, and keep their names and order *)
Theorem C97_cleaned_partial : forall df, Forall regular df ->
  pd_to_ks_clean df = Ok (map (fun c => mkColumn (k_name c) Plain (map clean_cell (k_cells c))) df).
Proof.
  intros df H. rewrite Forall_forall in H. apply clean_steps.
  apply mapM_all. intros c Hc. exact (steps_regular c (H c Hc)).
Qed.

Lemma mapM_length : forall A B (f : A -> res B) l l', mapM f l = Ok l' -> List.length l' = List.length l.
Proof. intros A B f l l' H. apply mapM_Ok_Forall2 in H. induction H; [reflexivity|]. cbn [List.length]. f_equal. assumption. Qed.

Definition kept (c c' : kcolumn) : Prop := k_name c' = k_name c /\ List.length (k_cells c') = List.length (k_cells c) /\
  (forall x r, k_cells c = x :: r -> single x -> k_cells c' = k_cells c).

(** C97: whenever there is a result, it has the same columns in the same order with as many rows, no categories,
    and those that start with a single value are unchanged *)
Theorem C97_kept : forall df df', pd_to_ks_clean df = Ok df' ->
  map k_name df' = map k_name df /\ map (fun c => List.length (k_cells c)) df' = map (fun c => List.length (k_cells c)) df /\
  (forall i c c', nth_error df i = Some c -> nth_error df' i = Some c' ->
     k_dtype c' = Plain /\ forall x r, k_cells c = x :: r -> single x -> k_cells c' = k_cells c).
Proof.
  intros df df' H. unfold pd_to_ks_clean in H. destruct (mapM replace_tuple df) as [d1|] eqn:E1; [|discriminate H]. cbn [bind] in H.
  destruct (mapM (replace_nan (-1)) d1) as [d2|] eqn:E2; [|discriminate H]. cbn [bind] in H.
  apply mapM_Ok_Forall2 in E1, E2, H. revert d2 df' E2 H. induction E1 as [|c c1 l l1 F1 E1 IH]; intros d2 df' E2 H.
  - inversion E2; subst. inversion H; subst. split; [reflexivity|]. split; [reflexivity|]. intros [|i] c c' Hc; discriminate Hc.
  - inversion E2 as [|? c2 ? l2 F2 E2']; subst. inversion H as [|? c3 ? l3 F3 H']; subst. destruct (IH _ _ E2' H') as (J1 & J2 & J3). clear IH.
    assert (K1 : kept c c1).
    { unfold replace_tuple in F1. unfold kept. destruct (k_cells c) as [|x r] eqn:Ec; [discriminate F1|].
      destruct x as [z | | s | xs | xs]; try (injection F1 as <-; rewrite Ec; auto; fail).
      destruct (mapM to_list (KTuple xs :: r)) as [cs|] eqn:Em; [|discriminate F1]. cbn [bind] in F1. injection F1 as <-. cbn [k_name k_cells].
      split; [reflexivity|]. split; [exact (mapM_length _ _ _ _ _ Em)|]. intros x r0 [= <- <-] [Hs _]. destruct (Hs xs eq_refl). }
    assert (K2 : kept c1 c2).
    { unfold replace_nan in F2. unfold kept. destruct (k_cells c1) as [|x r] eqn:Ec; [discriminate F2|].
      destruct x as [z | | s | xs | xs]; try (injection F2 as <-; rewrite Ec; auto; fail).
      destruct (mapM (flag_cell (-1)) (KList xs :: r)) as [cs|] eqn:Em; [|discriminate F2]. cbn [bind] in F2. injection F2 as <-. cbn [k_name k_cells].
      split; [reflexivity|]. split; [exact (mapM_length _ _ _ _ _ Em)|]. intros x r0 [= <- <-] [_ Hs]. destruct (Hs xs eq_refl). }
    assert (K3 : k_name c3 = k_name c2 /\ k_cells c3 = k_cells c2 /\ k_dtype c3 = Plain).
    { unfold replace_category in F3. destruct (k_dtype c2) eqn:Ed; [injection F3 as <-; auto| |injection F3 as <-; auto].
      destruct (existsb _ _); [discriminate F3|]. injection F3 as <-. auto. }
    destruct K1 as (A1 & A2 & A3), K2 as (B1 & B2 & B3), K3 as (C1 & C2 & C3).
    cbn [map]. rewrite J1, J2, C1, B1, A1, C2, B2, A2. split; [reflexivity|]. split; [reflexivity|].
    intros [|i] d d' Hd Hd'; cbn [nth_error] in *; [|exact (J3 i d d' Hd Hd')]. injection Hd as <-. injection Hd' as <-.
    split; [exact C3|]. intros x r Hx Hs. pose proof (A3 x r Hx Hs) as A4. rewrite C2, <- A4. apply (B3 x r); [rewrite A4; exact Hx | exact Hs].
Qed.

(** C97: a dataframe with columns but no rows is not accepted *)
Theorem C97_empty_refuted : forall df, df <> [] -> (forall c, In c df -> k_cells c = []) -> pd_to_ks_clean df = Err IndexError.
Proof.
  intros df Hne H. destruct df as [|c df]; [destruct (Hne eq_refl)|]. unfold pd_to_ks_clean. cbn [mapM]. unfold replace_tuple at 1.
  rewrite (H c (or_introl eq_refl)). reflexivity.
Qed.

Local Open Scope string_scope.
(** C97: a missing coordinate and the coordinate -1 become the same *)
Theorem C97_flag_refuted : exists a b, a <> b /\ clean_cell a = clean_cell b /\
  pd_to_ks_clean [mkColumn "latlong" Plain [a; b]] = Ok [mkColumn "latlong" Plain [clean_cell a; clean_cell b]].
Proof. exists (KTuple [INum 40; INaN]), (KTuple [INum 40; INum (-1)]). split; [discriminate|]. split; reflexivity. Qed.

(** C97: the first row decides: after a missing value tuples stay tuples; after a tuple a missing value is an error *)
Theorem C97_first_refuted :
  pd_to_ks_clean [mkColumn "latlong" Plain [KMissing; KTuple [INum 1; INaN]]] = Ok [mkColumn "latlong" Plain [KMissing; KTuple [INum 1; INaN]]] /\
  pd_to_ks_clean [mkColumn "latlong" Plain [KTuple [INum 1; INaN]; KMissing]] = Err TypeError.
Proof. split; reflexivity. Qed.

(** C97: a category of integers with a missing value is an error *)
Theorem C97_category_refuted : pd_to_ks_clean [mkColumn "device" IntCategory [KNum 1; KMissing]] = Err ValueError.
Proof. reflexivity. Qed.

Definition k_demo : kframe := [mkColumn "id" IntCategory [KNum 0; KNum 1]; mkColumn "latlong" Plain [KTuple [INum 5; INaN]; KTuple [INum 2; INum 3]]; mkColumn "name" Category [KText "a"; KMissing]].
Example C97_nonvacuous : Forall regular k_demo /\ pd_to_ks_clean k_demo =
  Ok [mkColumn "id" Plain [KNum 0; KNum 1]; mkColumn "latlong" Plain [KList [INum 5; INum (-1)]; KList [INum 2; INum 3]]; mkColumn "name" Plain [KText "a"; KMissing]].
Proof.
  split; [|reflexivity]. repeat apply Forall_cons; [| | |constructor]; (split; [discriminate|]).
  - right. split; [repeat constructor; discriminate|]. intros _ [H | [H | []]]; discriminate H.
  - left. split; [reflexivity|]. repeat constructor; eexists; (split; [left; reflexivity|]); intros s [H | [H | []]]; discriminate H.
  - right. split; [repeat constructor; discriminate|]. discriminate.
Qed.

Print Assumptions C97_cleaned_partial.
Print Assumptions C97_kept.
Print Assumptions C97_empty_refuted.
Print Assumptions C97_flag_refuted.
Print Assumptions C97_first_refuted.
Print Assumptions C97_category_refuted.
