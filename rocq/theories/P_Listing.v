(** C91, C92: listing primitives, and loading one from a file. *)
From Coq Require Import String Ascii List Bool Permutation Lia.
From Verif Require Import Base BaseFacts M_Listing S_Listing.
Import ListNotations.
Local Open Scope string_scope.
Local Open Scope list_scope.

Lemma dset_In_or {V} k (v : V) d n x : In (n, x) (dset String.eqb k v d) -> (n = k /\ x = v) \/ In (n, x) d.
Proof.
  induction d as [|[k0 v0] d IH]; cbn [dset]; [intros [[= <- <-]|[]]; auto|]. destruct (String.eqb_spec k k0) as [->|Hn]; intros [[= <- <-]|H]; auto; [right; right; exact H | right; left; reflexivity|]. destruct (IH H); auto. right. right. assumption.
Qed.
Lemma dset_key {V} k (v : V) d n : In n (map fst (dset String.eqb k v d)) <-> n = k \/ In n (map fst d).
Proof.
  induction d as [|[k0 v0] d IH]; cbn [dset map fst In]; [intuition auto|]. destruct (String.eqb_spec k k0) as [->|Hn]; cbn [map fst In]; [intuition auto|]. rewrite IH. intuition auto.
Qed.
Lemma dset_once {V} k (v : V) d : NoDup (map fst d) -> NoDup (map fst (dset String.eqb k v d)).
Proof.
  induction d as [|[k0 v0] d IH]; cbn [dset map fst]; [intros _; constructor; [intros [] | constructor]|]. intros H. inversion H as [|? ? H1 H2]; subst. destruct (String.eqb_spec k k0) as [->|Hn]; cbn [map fst]; [constructor; assumption|].
  constructor; [|apply IH; exact H2]. rewrite dset_key. intros [->|Hi]; contradiction.
Qed.

Lemma NoDup_app_intro {X} (a b : list X) : NoDup a -> NoDup b -> (forall x, In x a -> ~ In x b) -> NoDup (a ++ b).
Proof. induction a as [|x a IH]; cbn [app]; [auto|]. intros Ha Hb H. inversion Ha as [|? ? H1 H2]; subst. constructor; [rewrite in_app_iff; intros [Hi|Hi]; [contradiction | exact (H x (or_introl eq_refl) Hi)]|]. apply IH; auto. intros y Hy. apply H. right. exact Hy. Qed.
Section Facts.
  Variable lower : string -> string.
  Variable ordC : list pclass -> list pclass.
  Variable ordS : list string -> list string.
  Hypothesis ordC_perm : forall l, Permutation (ordC l) l.
  Hypothesis ordS_perm : forall l, Permutation (ordS l) l.
  Notation same := (fun c d => Nat.eqb (c_id c) (c_id d)).

  Lemma dict_of L : forall d, let d' := fold_left (fun d c => dset String.eqb (key_of lower c) c d) L d in
    (NoDup (map fst d) -> NoDup (map fst d')) /\ (forall k, In k (map fst d) -> In k (map fst d')) /\ (forall c, In c L -> In (key_of lower c) (map fst d')) /\
    (forall k c, In (k, c) d' -> In (k, c) d \/ In c L /\ k = key_of lower c).
  Proof.
    induction L as [|c L IH]; intros d; cbn [fold_left]; cbn zeta; [split; [auto|]; split; [auto|]; split; [intros c []|auto]|]. destruct (IH (dset String.eqb (key_of lower c) c d)) as (H1 & H2 & H3 & H4). cbn zeta in *. split; [|split; [|split]].
    - intros H. apply H1. apply dset_once. exact H.
    - intros k H. apply H2. apply dset_key. auto.
    - intros x [<-|H]; [|auto]. apply H2. apply dset_key. auto.
    - intros k x H. destruct (H4 k x H) as [H'|[H' ->]]; [|right; split; [right; exact H' | reflexivity]]. destruct (dset_In_or _ _ _ _ _ H') as [[-> ->]|H'']; [right; split; [left|]; reflexivity | left; exact H''].
  Qed.
  Lemma dedup_sub seen l c : In c (dedup_by same seen l) -> In c l.
  Proof. revert seen. induction l as [|a l IH]; intros seen; cbn [dedup_by]; [tauto|]. destruct (existsb _ _); [intros H; right; exact (IH _ H)|]. intros [->|H]; [left; reflexivity | right; exact (IH _ H)]. Qed.
  Lemma dedup_all l c : In c l -> forall seen, (exists d, In d (dedup_by same seen l) /\ c_id d = c_id c) \/ (exists d, In d seen /\ c_id d = c_id c).
  Proof.
    induction l as [|a l IH]; [intros []|]. intros H seen. cbn [dedup_by]. destruct (existsb (fun d => Nat.eqb (c_id a) (c_id d)) seen) eqn:E.
    - destruct H as [->|H]; [|exact (IH H seen)]. right. apply existsb_exists in E as (d & Hd & E). apply PeanoNat.Nat.eqb_eq in E. exists d. auto.
    - destruct H as [->|H]; [left; exists c; split; [left|]; reflexivity|]. destruct (IH H (a :: seen)) as [(d & Hd & Ed)|(d & [<-|Hd] & Ed)]; [left; exists d; split; [right; exact Hd | exact Ed] | left; exists a; split; [left; reflexivity | exact Ed] | right; exists d; auto].
  Qed.
  Lemma classes_of m c : In c (flat_map (fun a : string * option pclass => match snd a with Some c => [c] | None => [] end) m) <-> exists a, In (a, Some c) m.
  Proof.
    rewrite in_flat_map. split; [intros ([a [d|]] & H & Hc); cbn [snd] in Hc; [destruct Hc as [->|[]]; exists a; exact H | destruct Hc] | intros (a & H); exists (a, Some c); split; [exact H | left; reflexivity]].
  Qed.
  Lemma named c : has_name c = true <-> exists n, c_name c = Some n /\ n <> "".
  Proof. unfold has_name. destruct (c_name c) as [n|]; [|split; [discriminate | intros (n & [=] & _)]]. rewrite negb_true_iff, String.eqb_neq. split; [intros H; exists n; auto | intros (x & [= <-] & H); exact H]. Qed.
  Lemma get_spec want m : let d := get_primitives lower ordC want m in
    NoDup (map fst d) /\ (forall k c, In (k, c) d -> want c = true /\ exists n, exported m c n /\ k = lower n) /\
    (objects m -> forall c n, exported m c n -> want c = true -> In (lower n) (map fst d)).
  Proof.
    cbn zeta. unfold get_primitives. match goal with |- context [ordC ?l] => set (L := l) end. destruct (dict_of (ordC L) []) as (H1 & _ & H3 & H4). cbn zeta in *. split; [apply H1; constructor|]. split.
    - intros k c H. destruct (H4 k c H) as [[]|[Hc ->]]. apply (Permutation_in _ (ordC_perm L)) in Hc. apply dedup_sub in Hc. apply filter_In in Hc as [Hc E]. apply andb_true_iff in E as [E1 E2]. apply named in E2 as (n & En & Hn). split; [exact E1|]. exists n. split; [split; [apply classes_of; exact Hc | auto]|]. unfold key_of. rewrite En. reflexivity.
    - intros Ho c n (Hm & En & Hn) Hw. assert (lower n = key_of lower c) as -> by (unfold key_of; rewrite En; reflexivity). apply H3. apply (Permutation_in _ (Permutation_sym (ordC_perm L))).
      assert (In c (filter (fun c => want c && has_name c) (flat_map (fun a : string * option pclass => match snd a with Some c => [c] | None => [] end) m))) as Hc.
      { apply filter_In. split; [apply classes_of; exact Hm|]. apply andb_true_iff. split; [exact Hw | apply named; exists n; auto]. }
      destruct (dedup_all _ c Hc []) as [(d & Hd & E)|(d & [] & _)]. enough (d = c) as <- by exact Hd. pose proof (dedup_sub _ _ _ Hd) as Hd'. apply filter_In in Hd' as [Hd' _]. apply classes_of in Hd' as (a & Ha). destruct Hm as (b & Hb). exact (Ho a b d c Ha Hb E).
  Qed.

  (** ** Rows *)
  Lemma first_line_spec d : (exists rest, d = (first_line d ++ rest)%string /\ (rest = "" \/ exists t, rest = String "010" t)) /\ ~ In "010"%char (list_ascii_of_string (first_line d)).
  Proof.
    induction d as [|a d [(rest & E & Hr) Hn]]; cbn [first_line]; [split; [exists ""; auto | intros []]|]. destruct (Ascii.eqb_spec a "010"%char) as [->|Ha]; [split; [exists (String "010" d); split; [reflexivity | right; exists d; reflexivity] | intros []]|].
    split; [exists rest; split; [cbn; rewrite <- E; reflexivity | exact Hr]|]. cbn [list_ascii_of_string In]. intros [H|H]; contradiction.
  Qed.
  Fixpoint isize (t : itype) : nat := match t with IName _ => 1 | IList l => S (list_sum (map isize l)) end.
  Lemma mentions_spec x : forall k ts, list_sum (map isize ts) < k -> (In x (flat_map input_names ts) <-> mentions x ts).
  Proof.
    induction k as [|k IH]; [lia|]. induction ts as [|t ts IHl]; intros Hk; cbn [flat_map map list_sum fold_right] in *; [split; [intros [] | intros H; inversion H]|].
    change (fold_right Nat.add 0 (map isize ts)) with (list_sum (map isize ts)) in Hk. rewrite in_app_iff. destruct t as [n|l]; cbn [input_names isize] in *.
    - rewrite IHl by lia. split; [intros [[->|[]]|H]; [apply men_here | apply men_later; exact H]|]. intros H. inversion H; subst; [left; left; reflexivity | right; assumption].
    - rewrite IHl by lia. rewrite (IH l) by lia. split; [intros [H|H]; [apply men_in; exact H | apply men_later; exact H]|]. intros H. inversion H; subst; auto.
  Qed.
  Lemma row_describes ty k c n : k = lower n -> describes lower (make_row ordS ty (k, c)) c n.
  Proof.
    intros ->. split; cbn [make_row l_name l_dask l_koalas l_desc l_inputs l_ret fst snd]; auto.
    - unfold description. destruct (c_doc c) as [d|]; [apply first_line_spec | reflexivity].
    - exists (ordS (valid_inputs (c_inputs c))). split; [reflexivity|]. split; [apply (Permutation_NoDup (Permutation_sym (ordS_perm _))); apply (dedup_NoDup String.eqb String.eqb_spec)|].
      intros x. transitivity (In x (valid_inputs (c_inputs c))); [split; apply Permutation_in; [apply ordS_perm | apply Permutation_sym, ordS_perm]|]. unfold valid_inputs. rewrite (dedup_In String.eqb String.eqb_spec). rewrite (mentions_spec x (S (list_sum (map isize (c_inputs c))))) by lia. split; [tauto | intros H; split; [exact H | intros []]].
  Qed.

  (** ** C91 *)
  (** every row describes a class of the module of its type *)
  Theorem C91_described m r : In r (list_primitives lower ordC ordS m) ->
    exists c n, exported m c n /\ describes lower r c n /\ (l_type r = "aggregation" /\ c_agg c = true \/ l_type r = "transform" /\ c_trans c = true).
  Proof.
    unfold list_primitives. rewrite in_app_iff, !in_map_iff. intros [([k c] & <- & H)|([k c] & <- & H)]; destruct (get_spec c_agg m) as (_ & Ha & _); destruct (get_spec c_trans m) as (_ & Ht & _); cbn zeta in *.
    - destruct (Ha k c H) as (Hw & n & He & Hk). exists c, n. split; [exact He|]. split; [apply row_describes; exact Hk | auto].
    - destruct (Ht k c H) as (Hw & n & He & Hk). exists c, n. split; [exact He|]. split; [apply row_describes; exact Hk | auto].
  Qed.
  (** every class with a name is there under that name, in lower case *)
  Theorem C91_complete m c n : objects m -> exported m c n ->
    (c_agg c = true -> exists r, In r (list_primitives lower ordC ordS m) /\ l_type r = "aggregation" /\ l_name r = lower n) /\
    (c_trans c = true -> exists r, In r (list_primitives lower ordC ordS m) /\ l_type r = "transform" /\ l_name r = lower n).
  Proof.
    intros Ho He. destruct (get_spec c_agg m) as (_ & _ & Ha). destruct (get_spec c_trans m) as (_ & _ & Ht). cbn zeta in *. split; intros Hw.
    - specialize (Ha Ho c n He Hw). apply in_map_iff in Ha as ([k d] & Ek & Hd). exists (make_row ordS "aggregation" (k, d)). split; [apply in_or_app; left; apply in_map; exact Hd | split; [reflexivity | exact Ek]].
    - specialize (Ht Ho c n He Hw). apply in_map_iff in Ht as ([k d] & Ek & Hd). exists (make_row ordS "transform" (k, d)). split; [apply in_or_app; right; apply in_map; exact Hd | split; [reflexivity | exact Ek]].
  Qed.
  (** no name is there twice with one type *)
  Theorem C91_once m : NoDup (map (fun r => (l_name r, l_type r)) (list_primitives lower ordC ordS m)).
  Proof.
    unfold list_primitives. rewrite map_app, !map_map. cbn [make_row l_name l_type]. assert (forall ty (d : list (string * pclass)), NoDup (map fst d) -> NoDup (map (fun x : string * pclass => (fst x, ty : string)) d)) as Hd.
    { intros ty d. induction d as [|x d IH]; cbn [map]; [constructor|]. intros H. inversion H as [|? ? H1 H2]; subst. constructor; [|apply IH; exact H2]. intros Hi. apply H1. apply in_map_iff in Hi as (y & E & Hy). injection E as E. rewrite <- E. apply in_map. exact Hy. }
    pose proof (Hd "aggregation" _ (proj1 (get_spec c_agg m))) as H1. pose proof (Hd "transform" _ (proj1 (get_spec c_trans m))) as H2. cbn zeta in *.
    apply NoDup_app_intro; [exact H1 | exact H2|]. intros x Hx Hy. apply in_map_iff in Hx as (a & <- & _). apply in_map_iff in Hy as (b & [=] & _).
  Qed.
End Facts.

(** the classes listed do not depend on the order of a set, when names differ by more than case *)
Theorem C91_settled_partial lower o1 o2 s1 s2 m c n1 r : (forall l, Permutation (o1 l) l) -> (forall l, Permutation (o2 l) l) -> (forall l, Permutation (s1 l) l) -> (forall l, Permutation (s2 l) l) ->
  objects m -> (forall c d n k, exported m c n -> exported m d k -> lower n = lower k -> c = d) ->
  In r (list_primitives lower o1 s1 m) -> exported m c n1 -> describes lower r c n1 ->
  exists r', In r' (list_primitives lower o2 s2 m) /\ l_type r' = l_type r /\ describes lower r' c n1.
Proof.
  intros P1 P2 Q1 Q2 Ho Hd Hr He Hdes. destruct (C91_described lower o1 s1 P1 Q1 m r Hr) as (c' & n' & He' & Hdes' & Ht).
  assert (c' = c) as -> by (apply (Hd c' c n' n1 He' He); rewrite <- (d_name _ _ _ _ Hdes'), <- (d_name _ _ _ _ Hdes); reflexivity).
  destruct (C91_complete lower o2 s2 P2 m c n1 Ho He) as [Ha Htr]. destruct Ht as [[E W]|[E W]].
  - destruct (Ha W) as (r' & Hr' & E' & En). exists r'. split; [exact Hr'|]. split; [congruence|]. destruct (C91_described lower o2 s2 P2 Q2 m r' Hr') as (c2 & n2 & He2 & Hd2 & _). assert (c2 = c) as -> by (apply (Hd c2 c n2 n1 He2 He); rewrite <- (d_name _ _ _ _ Hd2); exact En).
    assert (n2 = n1) as -> by (destruct He as (_ & A1 & _); destruct He2 as (_ & A2 & _); congruence). exact Hd2.
  - destruct (Htr W) as (r' & Hr' & E' & En). exists r'. split; [exact Hr'|]. split; [congruence|]. destruct (C91_described lower o2 s2 P2 Q2 m r' Hr') as (c2 & n2 & He2 & Hd2 & _). assert (c2 = c) as -> by (apply (Hd c2 c n2 n1 He2 He); rewrite <- (d_name _ _ _ _ Hd2); exact En).
    assert (n2 = n1) as -> by (destruct He as (_ & A1 & _); destruct He2 as (_ & A2 & _); congruence). exact Hd2.
Qed.

(** ** Examples *)
Definition x_low (s : string) : string := if String.eqb s "Sum" then "sum" else s.
Definition x_cls (i : nat) (agg : bool) (n : string) (doc : option string) (ts : list itype) : pclass := mkPc i true agg (negb agg) (Some n) doc ts (Some "Numeric") true false.
Definition x_sum := x_cls 2 true "sum" (Some (String.append "Adds." (String "010" "More."))) [IName "Numeric"].
Definition x_sum' := x_cls 3 true "Sum" None [IName "Boolean"].
Definition x_eq := x_cls 4 false "equal" None [IList [IName "Numeric"; IName "Boolean"]; IList [IName "Boolean"]].
Definition x_module : pymodule := [("Equal", Some x_eq); ("Sum", Some x_sum); ("Total", Some x_sum); ("utils", None)].
Example C91_nonvacuous : list_primitives x_low (fun l => l) (fun l => l) x_module =
  [mkRow "sum" "aggregation" true false "Adds." "Numeric" (Some "Numeric"); mkRow "equal" "transform" true false "" "Numeric, Boolean" (Some "Numeric")] /\
  objects x_module /\ (forall c d n k, exported x_module c n -> exported x_module d k -> x_low n = x_low k -> c = d).
Proof.
  split; [vm_compute; reflexivity|]. split.
  - intros a b c d Hc Hd. repeat (destruct Hc as [[= <- <-]|Hc]; [repeat (destruct Hd as [[= <- <-]|Hd]; [intros E; try discriminate E; reflexivity|]); destruct Hd as [[=]|[]]|]). destruct Hc as [[=]|[]].
  - intros c d n k ((a & Hc) & En & _) ((b & Hd) & Ek & _). repeat (destruct Hc as [[= <- <-]|Hc]; [injection En as <-; repeat (destruct Hd as [[= <- <-]|Hd]; [injection Ek as <-; intros E; try discriminate E; reflexivity|]); destruct Hd as [[=]|[]]|]). destruct Hc as [[=]|[]].
Qed.
(** two primitives whose names differ in case only: which one is listed, and is used under that name, depends on the order of a set *)
Theorem C91_choice_refuted : exists m o1 o2 c1 c2, (forall l, Permutation (o1 l) l) /\ (forall l, Permutation (o2 l) l) /\ objects m /\ c1 <> c2 /\
  get_primitives x_low o1 c_agg m = [("sum", c1)] /\ get_primitives x_low o2 c_agg m = [("sum", c2)].
Proof.
  exists [("Sum", Some x_sum); ("Sum2", Some x_sum')], (fun l => l), (@rev pclass), x_sum', x_sum. split; [intros l; apply Permutation_refl|]. split; [intros l; apply Permutation_sym, Permutation_rev|].
  split; [|split; [discriminate | split; vm_compute; reflexivity]]. intros a b c d [[= <- <-]|[[= <- <-]|[]]] [[= <- <-]|[[= <- <-]|[]]] E; try discriminate E; reflexivity.
Qed.
(** the text of the inputs depends on the order of a set *)
Theorem C91_inputs_refuted : exists m o1 o2, (forall l, Permutation (o1 l) l) /\ (forall l, Permutation (o2 l) l) /\
  map l_inputs (list_primitives x_low (fun l => l) o1 m) <> map l_inputs (list_primitives x_low (fun l => l) o2 m).
Proof. exists x_module, (fun l => l), (@rev string). split; [intros l; apply Permutation_refl|]. split; [intros l; apply Permutation_sym, Permutation_rev|]. vm_compute. discriminate. Qed.

(** ** C92 *)
(** a file gives a primitive exactly when one of its names, and only one, is a primitive other than the base classes *)
Theorem C92_load agg trans vars n c : NoDup (map fst vars) ->
  (load_primitive agg trans vars = Ok (n, c) <-> In (n, Some c) vars /\ own_primitive agg trans c /\ forall n' c', In (n', Some c') vars -> own_primitive agg trans c' -> n' = n).
Proof.
  intros Hnd. unfold load_primitive. match goal with |- context [flat_map ?g vars] => set (f := g) end.
  assert (forall x, In x (flat_map f vars) <-> In (fst x, Some (snd x)) vars /\ own_primitive agg trans (snd x)) as Hin.
  { intros [k d]. rewrite in_flat_map. cbn [fst snd]. unfold own_primitive. split.
    - intros ([a [e|]] & H & Hf); unfold f in Hf; cbn [fst snd] in Hf; [|destruct Hf]. destruct (c_prim e && _) eqn:E; [|destruct Hf]. destruct Hf as [[= <- <-]|[]]. apply andb_true_iff in E as [E1 E2]. apply negb_true_iff, orb_false_iff in E2 as [E2 E3]. apply PeanoNat.Nat.eqb_neq in E2, E3. auto.
    - intros (H & H1 & H2 & H3). exists (k, Some d). split; [exact H|]. unfold f. cbn [fst snd]. rewrite H1. apply PeanoNat.Nat.eqb_neq in H2, H3. rewrite H2, H3. left. reflexivity. }
  assert (NoDup (map fst (flat_map f vars))) as Hnf.
  { clear Hin. induction vars as [|[a o] vars IH]; cbn [flat_map map fst] in *; [constructor|]. inversion Hnd as [|? ? H1 H2]; subst. rewrite map_app. assert (forall x, In x (map fst (flat_map f vars)) -> In x (map fst vars)) as Hs.
    { intros x Hx. apply in_map_iff in Hx as ([k d] & <- & Hx). apply in_flat_map in Hx as ([b [e|]] & Hb & Hx); unfold f in Hx; cbn [fst snd] in Hx; [|destruct Hx]. destruct (c_prim e && _); [|destruct Hx]. destruct Hx as [[= <- <-]|[]]. cbn [fst]. apply in_map_iff. exists (b, Some e). auto. }
    unfold f at 1. cbn [fst snd]. destruct o as [e|]; cbn [map app]; [|apply IH; exact H2]. destruct (c_prim e && _); cbn [map app fst]; [constructor; [intros Hx; apply H1, Hs; exact Hx | apply IH; exact H2] | apply IH; exact H2]. }
  destruct (flat_map f vars) as [|[k d] [|[k2 d2] l]] eqn:E.
  - split; [discriminate|]. intros (H & Ho & _). destruct (proj2 (Hin (n, c)) (conj H Ho)).
  - split.
    + intros [= -> ->]. destruct (proj1 (Hin (n, c)) (or_introl eq_refl)) as [H1 H2]. split; [exact H1|]. split; [exact H2|]. intros n' c' H Ho. destruct (proj2 (Hin (n', c')) (conj H Ho)) as [[= <- <-]|[]]. reflexivity.
    + intros (H & Ho & _). destruct (proj2 (Hin (n, c)) (conj H Ho)) as [[= -> ->]|[]]. reflexivity.
  - split; [discriminate|]. intros (_ & _ & Hu). exfalso. destruct (proj1 (Hin (k, d)) (or_introl eq_refl)) as [A1 A2]. destruct (proj1 (Hin (k2, d2)) (or_intror (or_introl eq_refl))) as [B1 B2]. cbn [fst snd] in *. pose proof (Hu _ _ A1 A2). pose proof (Hu _ _ B1 B2). subst. cbn [map fst] in Hnf. inversion Hnf as [|? ? H1 _]; subst. apply H1. left. reflexivity.
Qed.
(** so a file that defines one primitive as a subclass of another one it imports is refused *)
Theorem C92_import_refuted : exists agg trans vars (own : string), NoDup (map fst vars) /\ (exists c, In (own, Some c) vars /\ own_primitive agg trans c) /\
  (forall n c, In (n, Some c) vars -> n <> own -> In (n, Some c) x_module) /\ load_primitive agg trans vars = Err RuntimeError.
Proof.
  exists 0, 1, [("Sum", Some x_sum); ("MySum", Some (x_cls 9 true "my_sum" None [IName "Numeric"]))], "MySum". split; [repeat constructor; cbn; intuition discriminate|]. split; [eexists; split; [right; left; reflexivity | repeat split; discriminate]|].
  split; [|vm_compute; reflexivity]. intros n c [Hi|[Hi|[]]] Hne; injection Hi as <- <-; [right; left; reflexivity | contradiction].
Qed.
Lemma sdrop_app p t : sdrop (String.length (p ++ t) - String.length t) (p ++ t) = t.
Proof.
  assert (forall p t, String.length (p ++ t)%string = String.length p + String.length t) as Hl by (induction p0; intros; cbn; auto). rewrite Hl. replace (String.length p + String.length t - String.length t) with (String.length p) by lia. induction p as [|a p IH]; [destruct t; reflexivity | exact IH].
Qed.
Lemma sdrop_split k s : exists p, s = (p ++ sdrop k s)%string.
Proof. revert s. induction k as [|k IH]; intros s; [exists ""; destruct s; reflexivity|]. destruct s as [|a s]; [exists ""; reflexivity|]. destruct (IH s) as (p & E). exists (String a p). cbn. rewrite <- E. reflexivity. Qed.
Lemma valid_spec isdir f : f <> "" -> basename f = f -> check_valid_primitive_path isdir f = Ok true <-> isdir f = false /\ primitive_file f.
Proof.
  intros Hne Hb. unfold check_valid_primitive_path. rewrite Hb. destruct (isdir f); [split; [discriminate | intros [[=] _]]|]. unfold primitive_file.
  destruct (String.eqb_spec (stake 2 f) "__") as [E|E].
  - split; [discriminate|]. intros (_ & _ & H & _). exfalso. apply H. destruct f as [|a [|b f]]; try discriminate. cbn in E. injection E as -> ->. exists f. destruct f; reflexivity.
  - destruct f as [|a f]; [contradiction|]. destruct (Ascii.eqb_spec a "."%char) as [->|Ha]; [split; [discriminate | intros (_ & _ & _ & H); exfalso; apply H; exists f; reflexivity]|]. split.
    + intros H0. assert (forall b, Ok b = Ok true :> res bool -> b = true) as Hx by congruence. apply Hx in H0. pose proof (proj1 (String.eqb_eq _ _) H0) as H. split; [reflexivity|]. split; [|split].
      * destruct (sdrop_split (String.length (String a f) - 3) (String a f)) as (p & Ep). exists p. rewrite H in Ep. exact Ep.
      * intros (s & Es). apply E. rewrite Es. destruct s; reflexivity.
      * intros (s & [= -> _]). contradiction.
    + intros (_ & (s & Es) & _). rewrite Es. pose proof (sdrop_app s ".py") as X. cbn [String.length] in X. rewrite X. reflexivity.
Qed.
(** when no file is named like a directory of the current directory, the files listed are those with a fitting name *)
Theorem C92_files_partial isdir directory files fs : (forall f, In f files -> f <> "" /\ basename f = f /\ isdir f = false) -> list_primitive_files isdir directory files = Ok fs ->
  forall p, In p fs <-> exists f, In f files /\ primitive_file f /\ p = (directory ++ "/" ++ f)%string.
Proof.
  intros Hf. unfold list_primitive_files. assert (forall keep, foldM (fun keep path => do ok <- check_valid_primitive_path isdir path; Ok (if ok then keep ++ [(directory ++ "/" ++ path)%string] else keep)) files keep = Ok fs ->
    forall p, In p fs <-> In p keep \/ exists f, In f files /\ primitive_file f /\ p = (directory ++ "/" ++ f)%string) as G.
  { induction files as [|f files IH]; intros keep; cbn [foldM]; [intros [= ->] p; split; [auto | intros [H|(f & [] & _)]; exact H]|].
    destruct (Hf f (or_introl eq_refl)) as (H1 & H2 & H3). pose proof (valid_spec isdir f H1 H2) as Hv. destruct (check_valid_primitive_path isdir f) as [b|] eqn:E; cbn [bind]; [|discriminate]. intros H p. rewrite (IH (fun g Hg => Hf g (or_intror Hg)) _ H p). destruct b.
    - destruct (proj1 Hv eq_refl) as [_ Hp]. rewrite in_app_iff. split.
      + intros [[Hk|[<-|[]]]|(g & Hg & Hg2)]; [auto | right; exists f; split; [left; reflexivity | auto] | right; exists g; split; [right; exact Hg | exact Hg2]].
      + intros [Hk|(g & [<-|Hg] & Hg2 & ->)]; [auto | left; right; left; reflexivity | right; exists g; auto].
    - split; [intros [Hk|(g & Hg & Hg2)]; [auto | right; exists g; split; [right; exact Hg | exact Hg2]]|]. intros [Hk|(g & [<-|Hg] & Hg2 & ->)]; [auto | | right; exists g; auto]. assert (Ok false = Ok true :> res bool) by (apply Hv; auto). discriminate. }
  intros H p. rewrite (G [] H p). split; [intros [[]|X]; exact X | auto].
Qed.
Example C92_nonvacuous : list_primitive_files (fun _ => false) "prims" ["sum.py"; "__init__.py"; ".x.py"; "notes.txt"; "py"] = Ok ["prims/sum.py"] /\
  load_primitive 0 1 [("np", None); ("AggregationPrimitive", Some (mkPc 0 true true false None None [] None true true)); ("Sum", Some x_sum)] = Ok ("Sum", x_sum).
Proof. split; vm_compute; reflexivity. Qed.
(** the test for directories looks in the current directory: there a directory hides a file, and subdirectories of the directory listed are taken for files *)
Theorem C92_directory_refuted : exists directory files cwd1 cwd2 fs1, primitive_file "sum.py" /\ In "sum.py" files /\
  list_primitive_files cwd1 directory files = Ok fs1 /\ In (directory ++ "/sum.py")%string fs1 /\ list_primitive_files cwd2 directory files = Ok [].
Proof.
  exists "prims", ["sum.py"], (fun _ => false), (fun p => String.eqb p "sum.py"). eexists. split; [|split; [left; reflexivity | split; [vm_compute; reflexivity | split; [left; reflexivity | vm_compute; reflexivity]]]].
  split; [exists "sum"; reflexivity|]. split; intros (s & [=]).
Qed.
Print Assumptions C91_described.
Print Assumptions C91_complete.
Print Assumptions C91_once.
Print Assumptions C91_settled_partial.
Print Assumptions C91_choice_refuted.
Print Assumptions C91_inputs_refuted.
Print Assumptions C92_load.
Print Assumptions C92_import_refuted.
Print Assumptions C92_files_partial.
Print Assumptions C92_directory_refuted.
