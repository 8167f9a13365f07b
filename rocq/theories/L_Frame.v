(** Facts about the pandas operations of M_Calc. *)
From Verif Require Import Base BaseFacts M_Schema M_Table M_Query L_Query M_Feature M_FeatureSet M_Calc.

Lemma cell_dset c c' v r : cell c (dset String.eqb c' v r) = if String.eqb c c' then v else cell c r.
Proof.
  unfold cell. destruct (String.eqb_spec c c') as [->|Hn].
  - rewrite (dget_dset_same _ String.eqb_spec). reflexivity.
  - rewrite (dget_dset_other _ String.eqb_spec) by exact Hn. reflexivity.
Qed.

Lemma cell_dset_same c v r : cell c (dset String.eqb c v r) = v.
Proof. rewrite cell_dset, String.eqb_refl. reflexivity. Qed.
Lemma cell_dset_other c c' v r : c <> c' -> cell c (dset String.eqb c' v r) = cell c r.
Proof. intros H. rewrite cell_dset. destruct (String.eqb_spec c c'); [congruence|reflexivity]. Qed.

Lemma cell_set_cells_other kvs c r : ~ In c (map fst kvs) -> cell c (set_cells kvs r) = cell c r.
Proof.
  unfold set_cells. revert r. induction kvs as [|[k v] kvs IH]; intros r H; cbn [fold_left map fst snd] in *; [reflexivity|].
  rewrite IH by (intros Hc; apply H; right; exact Hc). apply cell_dset_other. intros ->. apply H; left; reflexivity.
Qed.

Lemma cell_set_cells_in kvs k v r : NoDup (map fst kvs) -> In (k, v) kvs -> cell k (set_cells kvs r) = v.
Proof.
  unfold set_cells. revert r. induction kvs as [|[k' v'] kvs IH]; intros r Hn Hin; cbn [fold_left map fst snd] in *; [destruct Hin|].
  inversion Hn as [|x l Hx Hl]; subst. destruct Hin as [[= -> ->]|Hin].
  - change (cell k (set_cells kvs (dset String.eqb k v r)) = v). rewrite cell_set_cells_other by exact Hx. apply cell_dset_same.
  - apply IH; assumption.
Qed.

Lemma add_col_In c x cs : In x (add_col c cs) <-> x = c \/ In x cs.
Proof.
  unfold add_col. destruct (mem_str c cs) eqn:E.
  - apply mem_str_In in E. split; [auto | intros [->|H]; auto].
  - rewrite in_app_iff. simpl. intuition.
Qed.

Lemma check_col_Ok d c u : check_col d c = Ok u -> In c (cols d).
Proof. unfold check_col. destruct (mem_str c (cols d)) eqn:E; [|discriminate]. intros _. apply mem_str_In; exact E. Qed.
Lemma check_col_Ok' d c : In c (cols d) -> check_col d c = Ok tt.
Proof. apply check_col_ok. Qed.

Lemma mapM_check_Ok d cs us : mapM (check_col d) cs = Ok us -> incl cs (cols d).
Proof.
  revert us. induction cs as [|c cs IH]; intros us H; [intros x []|]. cbn [mapM] in H.
  apply bind_Ok in H as (u & Hu & H). apply bind_Ok in H as (us' & Hus & _).
  intros x [<-|Hx]; [eapply check_col_Ok; exact Hu | eapply IH; eassumption].
Qed.

Lemma column_Ok d c vs : column d c = Ok vs -> In c (cols d) /\ vs = map (cell c) (rows d).
Proof. unfold column. intros H. apply bind_Ok in H as (u & Hu & H). injection H as <-. split; [eapply check_col_Ok; exact Hu | reflexivity]. Qed.

(** ** Forall2 helpers *)
Lemma Forall2_length' {A B} (R : A -> B -> Prop) l l' : Forall2 R l l' -> List.length l = List.length l'.
Proof. induction 1; simpl; congruence. Qed.

Lemma Forall2_map_r {A B C} (R : A -> C -> Prop) (f : B -> C) l l' :
  Forall2 (fun a b => R a (f b)) l l' -> Forall2 R l (map f l').
Proof. induction 1; simpl; constructor; auto. Qed.

Lemma Forall2_map_l {A B C} (R : C -> B -> Prop) (f : A -> C) l l' :
  Forall2 (fun a b => R (f a) b) l l' -> Forall2 R (map f l) l'.
Proof. induction 1; simpl; constructor; auto. Qed.

Lemma Forall2_impl {A B} (R S : A -> B -> Prop) l l' :
  (forall a b, In a l -> In b l' -> R a b -> S a b) -> Forall2 R l l' -> Forall2 S l l'.
Proof.
  intros H H2. induction H2 as [|a b l l' Hr H2 IH]; constructor.
  - apply H; simpl; auto.
  - apply IH. intros a' b' Ha Hb. apply H; simpl; auto.
Qed.

Lemma Forall2_and {A B} (R S : A -> B -> Prop) l l' :
  Forall2 R l l' -> Forall2 S l l' -> Forall2 (fun a b => R a b /\ S a b) l l'.
Proof. induction 1 as [|a b l l' H H2 IH]; intros HS; inversion HS; subst; constructor; auto. Qed.

Lemma Forall2_trans' {A B C} (R : A -> B -> Prop) (S : B -> C -> Prop) (U : A -> C -> Prop) l1 l2 l3 :
  (forall a b c, R a b -> S b c -> U a c) -> Forall2 R l1 l2 -> Forall2 S l2 l3 -> Forall2 U l1 l3.
Proof. intros H H1. revert l3. induction H1 as [|a b l1 l2 Hr H1 IH]; intros l3 H2; inversion H2; subst; constructor; eauto. Qed.

Lemma Forall2_filter {A B} (R : A -> B -> Prop) p q l l' :
  (forall a b, In a l -> R a b -> p a = q b) -> Forall2 R l l' -> Forall2 R (filter p l) (filter q l').
Proof.
  intros Hpq H. induction H as [|a b l l' Hr H IH]; simpl; [constructor|].
  rewrite (Hpq a b (or_introl eq_refl) Hr). specialize (IH (fun a' b' Ha => Hpq a' b' (or_intror Ha))).
  destruct (q b); [constructor; assumption | exact IH].
Qed.

Lemma Forall2_In_l {A B} (R : A -> B -> Prop) l l' a : Forall2 R l l' -> In a l -> exists b, In b l' /\ R a b.
Proof. induction 1 as [|x y l l' Hr H IH]; intros []; [subst; exists y; simpl; auto|]. destruct (IH H0) as (b & Hb & Hb'). exists b; simpl; auto. Qed.
Lemma Forall2_In_r {A B} (R : A -> B -> Prop) l l' b : Forall2 R l l' -> In b l' -> exists a, In a l /\ R a b.
Proof. induction 1 as [|x y l l' Hr H IH]; intros []; [subst; exists x; simpl; auto|]. destruct (IH H0) as (a & Ha & Ha'). exists a; simpl; auto. Qed.

Lemma Forall2_map_eq {A B C} (f : A -> C) (g : B -> C) l l' : Forall2 (fun a b => f a = g b) l l' -> map f l = map g l'.
Proof. induction 1; simpl; congruence. Qed.

Lemma Forall2_nth {A B} (R : A -> B -> Prop) l l' :
  List.length l = List.length l' ->
  (forall k a b, nth_error l k = Some a -> nth_error l' k = Some b -> R a b) -> Forall2 R l l'.
Proof.
  revert l'. induction l as [|a l IH]; intros [|b l'] Hl H; try discriminate; constructor.
  - apply (H 0); reflexivity.
  - apply IH; [simpl in Hl; congruence|]. intros k. apply (H (S k)).
Qed.

Lemma Forall2_nth_error {A B} (R : A -> B -> Prop) l l' k a b :
  Forall2 R l l' -> nth_error l k = Some a -> nth_error l' k = Some b -> R a b.
Proof.
  intros H. revert k. induction H as [|x y l l' Hr H IH]; intros [|k] Ha Hb; simpl in *; try discriminate.
  - congruence.
  - eauto.
Qed.

Lemma Forall2_refl' {A} (R : A -> A -> Prop) l : (forall a, In a l -> R a a) -> Forall2 R l l.
Proof. induction l as [|a l IH]; intros H; constructor; [apply H; left; reflexivity | apply IH; intros; apply H; right; assumption]. Qed.

(** ** merges on a unique key *)
Definition merge_row (key : row -> val) (right : list (val * row)) (new : list (string * string)) (r : row) : row :=
  match find (fun kr => val_eqb (fst kr) (key r)) right with
  | None => set_cells (map (fun nc => (fst nc, VNull)) new) r
  | Some kr => set_cells (map (fun nc => (fst nc, cell (snd nc) (snd kr))) new) r
  end.

Lemma filter_unique_key k (right : list (val * row)) :
  NoDup (map fst right) ->
  filter (fun kr => val_eqb (fst kr) k) right = match find (fun kr => val_eqb (fst kr) k) right with None => [] | Some kr => [kr] end.
Proof.
  induction right as [|[k' v] right IH]; intros H; [reflexivity|]. cbn [filter find fst map] in *.
  inversion H as [|x l Hx Hl]; subst. destruct (val_eqb_spec k' k) as [->|Hn]; [|apply IH; exact Hl].
  f_equal. apply filter_all_false. intros [k'' v''] Hin. cbn [fst].
  destruct (val_eqb_spec k'' k) as [->|]; [|reflexivity]. exfalso. apply Hx. change k with (fst (k, v'')). apply in_map; exact Hin.
Qed.

Lemma left_merge_unique left key right new :
  NoDup (map fst right) -> left_merge left key right new = map (merge_row key right new) left.
Proof.
  intros H. induction left as [|r left IH]; [reflexivity|].
  change (left_merge (r :: left) key right new) with
    (match filter (fun kr => val_eqb (fst kr) (key r)) right with
     | [] => [set_cells (map (fun nc => (fst nc, VNull)) new) r]
     | ms => map (fun kr => set_cells (map (fun nc => (fst nc, cell (snd nc) (snd kr))) new) r) ms
     end ++ left_merge left key right new).
  cbn [map]. rewrite IH, filter_unique_key by exact H. unfold merge_row. destruct (find _ right); reflexivity.
Qed.

Lemma merge_row_other key right new r c : ~ In c (map fst new) -> cell c (merge_row key right new r) = cell c r.
Proof.
  intros H. unfold merge_row. destruct (find _ right); apply cell_set_cells_other; rewrite map_map; exact H.
Qed.

Lemma merge_row_new key right new r n c : NoDup (map fst new) -> In (n, c) new ->
  cell n (merge_row key right new r) =
  match find (fun kr => val_eqb (fst kr) (key r)) right with None => VNull | Some kr => cell c (snd kr) end.
Proof.
  intros Hn Hin. unfold merge_row. destruct (find _ right) as [kr|].
  - apply cell_set_cells_in; [rewrite map_map; exact Hn|]. apply (in_map (fun nc => (fst nc, cell (snd nc) (snd kr))) _ _ Hin).
  - apply cell_set_cells_in; [rewrite map_map; exact Hn|]. apply (in_map (fun nc : string * string => (fst nc, VNull)) _ _ Hin).
Qed.

(** ** fillna *)
Lemma fillna_cell fills cs r c :
  NoDup (map fst fills) ->
  cell c (fold_left (fun r kv => if mem_str (fst kv) cs && is_null (cell (fst kv) r) then dset String.eqb (fst kv) (snd kv) r else r) fills r) =
  match dget String.eqb c fills with
  | Some v => if mem_str c cs && is_null (cell c r) then v else cell c r
  | None => cell c r
  end.
Proof.
  revert r. induction fills as [|[k v] fills IH]; intros r Hn; cbn [fold_left fst snd dget map] in *; [reflexivity|].
  inversion Hn as [|x l Hx Hl]; subst. rewrite IH by exact Hl.
  assert (forall c, c <> k -> cell c (if mem_str k cs && is_null (cell k r) then dset String.eqb k v r else r) = cell c r) as Ho.
  { intros c' Hc'. destruct (mem_str k cs && is_null (cell k r)); [apply cell_dset_other; exact Hc' | reflexivity]. }
  destruct (String.eqb_spec c k) as [->|Hck].
  - assert (dget String.eqb k fills = None) as -> by (apply (dget_None _ String.eqb_spec); exact Hx).
    destruct (mem_str k cs && is_null (cell k r)); [apply cell_dset_same | reflexivity].
  - rewrite (Ho c Hck). reflexivity.
Qed.

(** ** find and filter on distinct keys *)
Lemma find_key_unique {A} (key : A -> val) l a : NoDup (map key l) -> In a l -> find (fun x => val_eqb (key x) (key a)) l = Some a.
Proof.
  induction l as [|b l IH]; intros Hn Hin; [destruct Hin|]. cbn [find map] in *. inversion Hn as [|x l' Hx Hl]; subst.
  destruct (val_eqb_spec (key b) (key a)) as [E|E].
  - destruct Hin as [->|Hin]; [reflexivity|]. exfalso. apply Hx. rewrite E. apply in_map; exact Hin.
  - destruct Hin as [->|Hin]; [congruence | apply IH; assumption].
Qed.

Lemma find_key_None {A} (key : A -> val) l k : find (fun x => val_eqb (key x) k) l = None <-> ~ In k (map key l).
Proof.
  induction l as [|b l IH]; cbn [find map In]; [tauto|]. destruct (val_eqb_spec (key b) k) as [E|E]; [|tauto].
  split; [discriminate | intros H; exfalso; apply H; auto].
Qed.

Lemma find_some_key {A} (key : A -> val) l k a : find (fun x => val_eqb (key x) k) l = Some a -> In a l /\ key a = k.
Proof. intros H. apply find_some in H as [H1 H2]. destruct (val_eqb_spec (key a) k); [auto | discriminate]. Qed.

Lemma NoDup_map_filter {A B} (f : A -> B) p l : NoDup (map f l) -> NoDup (map f (filter p l)).
Proof.
  induction l as [|a l IH]; intros H; cbn [filter map] in *; [exact H|]. inversion H as [|x l' Hx Hl]; subst.
  destruct (p a); [|auto]. cbn [map]. constructor; [|auto]. intros Hin. apply Hx. apply in_map_iff in Hin as (y & Hy & Hin).
  apply filter_In in Hin as [Hin _]. rewrite <- Hy. apply in_map; exact Hin.
Qed.

Lemma group_keys_In key rs k : In k (group_keys key rs) <-> k <> VNull /\ exists r, In r rs /\ key r = k.
Proof.
  unfold group_keys. rewrite filter_In, (dedup_In val_eqb val_eqb_spec), in_map_iff. split.
  - intros [[(r & Hk & Hr) _] Hnn]. split; [intros ->; discriminate | eauto].
  - intros [Hnn (r & Hr & Hk)]. split; [split; [eauto | intros []]|]. destruct k; [congruence|reflexivity..].
Qed.

Lemma group_keys_NoDup key rs : NoDup (group_keys key rs).
Proof. unfold group_keys. apply NoDup_filter, (dedup_NoDup val_eqb val_eqb_spec). Qed.
