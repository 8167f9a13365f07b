(** Lemmas about frames stored in files. *)
From Coq Require Import Sorting.Permutation Sorting.Sorted DecimalString DecimalZ.
From Verif Require Import Base BaseFacts M_Schema M_Table M_LastTime M_Time M_Entities S_Entities L_Entities L_Tables M_Files S_Files.
Local Open Scope string_scope.
Local Open Scope list_scope.

Lemma cell_combine c (g : string -> string) h : In c h -> NoDup h -> dget String.eqb c (combine h (map g h)) = Some (g c).
Proof.
  induction h as [|a h IH]; intros Hin Hn; [destruct Hin|]. inversion Hn as [|? ? Ha Hn']; subst. cbn. destruct (String.eqb_spec c a) as [->|Hne]; [reflexivity|]. destruct Hin; [congruence | auto].
Qed.

Lemma row_eta r : NoDup (map fst r) -> map (fun c => (c, cell c r)) (map fst r) = r.
Proof.
  intros Hn. rewrite map_map. rewrite <- (map_id r) at 2. apply map_ext_in. intros [c v] Hin. cbn. f_equal. unfold cell. rewrite (dget_NoDup_In _ String.eqb_spec _ _ _ Hn Hin). reflexivity.
Qed.

Lemma nth_seq {A} (l : list A) d : map (fun k => nth k l d) (seq 0 (List.length l)) = l.
Proof.
  induction l as [|a l IH]; [reflexivity|]. cbn [List.length seq map]. f_equal. rewrite <- seq_shift, map_map. exact IH.
Qed.

(** a frame is its columns *)
Lemma frame_eta t : framed t -> from_columns (List.length (t_rows t)) (map (fun cd => (fst cd, (snd cd, t_column t (fst cd)))) (t_cols t)) = t.
Proof.
  intros [Hn Hr]. destruct t as [cs rs]. unfold from_columns, t_column, t_names in *. cbn [t_cols t_rows] in *. f_equal.
  - rewrite map_map. rewrite <- (map_id cs) at 2. apply map_ext. intros [c d]. reflexivity.
  - rewrite <- (nth_seq rs []) at 2. apply map_ext_in. intros k Hk. apply in_seq in Hk. rewrite map_map. cbn [fst snd].
    assert (In (nth k rs []) rs) as Hin by (apply nth_In; lia). rewrite <- (row_eta (nth k rs [])) by (rewrite (Hr _ Hin); exact Hn). rewrite (Hr _ Hin), map_map. apply map_ext. intros [c d]. cbn. f_equal.
    change VNull with (cell c []) at 1. rewrite map_nth. reflexivity.
Qed.

Lemma mapM_Ok_map {A B} (f : A -> res B) (g : A -> B) l : (forall x, In x l -> f x = Ok (g x)) -> mapM f l = Ok (map g l).
Proof. induction l as [|a l IH]; intros H; [reflexivity|]. cbn. rewrite H by (left; reflexivity). cbn. rewrite IH by (intros x Hx; apply H; right; exact Hx). reflexivity. Qed.

Lemma column_from n cs c d vs : NoDup (map fst cs) -> In (c, (d, vs)) cs -> List.length vs = n -> t_column (from_columns n cs) c = vs.
Proof.
  intros Hn Hin Hl. unfold t_column, from_columns. cbn [t_rows]. rewrite map_map. rewrite <- (nth_seq vs VNull) at 1. rewrite Hl. apply map_ext_in. intros k _. unfold cell.
  assert (dget String.eqb c (map (fun c0 => (fst c0, nth k (snd (snd c0)) VNull)) cs) = Some (nth k vs VNull)) as ->; [|reflexivity].
  apply (dget_NoDup_In _ String.eqb_spec); [rewrite map_map; exact Hn|]. apply in_map_iff. exists (c, (d, vs)). auto.
Qed.

Lemma dget_cols t c d : NoDup (t_names t) -> In (c, d) (t_cols t) -> dget String.eqb c (t_cols t) = Some d.
Proof. intros Hn Hin. apply (dget_NoDup_In _ String.eqb_spec); assumption. Qed.

(** reading columns back with the dtypes of the frame they came from *)
Lemma astype_back t d0 col : framed t -> (forall c d, In (c, d) (t_cols t) -> cast d (d0 c) (col c) = Ok (t_column t c) /\ List.length (col c) = List.length (t_rows t)) ->
  astype (t_cols t) (from_columns (List.length (t_rows t)) (map (fun cd => (fst cd, (d0 (fst cd), col (fst cd)))) (t_cols t))) = Ok t.
Proof.
  intros Hf H. pose proof Hf as [Hn Hr]. set (cs := map _ _). unfold astype.
  assert (t_names (from_columns (List.length (t_rows t)) cs) = t_names t) as Hnm by (unfold t_names, from_columns, cs; cbn; rewrite !map_map; reflexivity).
  assert (forallb (fun cd => mem_str (fst cd) (t_names (from_columns (List.length (t_rows t)) cs))) (t_cols t) = true) as ->.
  { apply forallb_forall. intros cd Hin. apply mem_str_In. rewrite Hnm. apply in_map. exact Hin. }
  assert (t_cols (from_columns (List.length (t_rows t)) cs) = map (fun cd => (fst cd, d0 (fst cd))) (t_cols t)) as Hc by (unfold from_columns, cs; cbn; rewrite map_map; reflexivity).
  rewrite Hc. rewrite (mapM_Ok_map _ (fun cd => (fst cd, (match dget String.eqb (fst cd) (t_cols t) with Some d => d | None => DObj end, t_column t (fst cd))))).
  - cbn [bind]. f_equal. replace (List.length (t_rows (from_columns (List.length (t_rows t)) cs))) with (List.length (t_rows t)) by (unfold from_columns; cbn; rewrite map_length, seq_length; reflexivity).
    etransitivity; [|exact (frame_eta t Hf)]. f_equal. rewrite map_map. apply map_ext_in. intros [c d] Hin. cbn [fst snd]. rewrite (dget_cols t c d Hn Hin). reflexivity.
  - intros [c x] Hin. cbn [fst snd]. apply in_map_iff in Hin as ([c' d] & E & Hin). injection E as <- <-. cbn [fst]. rewrite (dget_cols t c' d Hn Hin). destruct (H c' d Hin) as [Hx Hl].
    rewrite (column_from _ cs c' (d0 c') (col c')); [rewrite Hx; reflexivity | unfold cs; rewrite map_map; exact Hn | apply in_map_iff; exists (c', d); auto | exact Hl].
Qed.

Lemma cast_same d vs : cast d d vs = Ok vs.
Proof. unfold cast, dtype_eqb. destruct (dtype_eq_dec d d); [reflexivity | congruence]. Qed.

(** *** pickle and parquet *)
Lemma pickle_back t : framed t -> astype (t_cols t) t = Ok t.
Proof.
  intros Hf. rewrite <- (astype_back t (fun c => match dget String.eqb c (t_cols t) with Some d => d | None => DObj end) (t_column t) Hf).
  - f_equal. etransitivity; [symmetry; exact (frame_eta t Hf)|]. f_equal. apply map_ext_in. intros [c d] Hin. cbn [fst snd]. rewrite (dget_cols t c d (proj1 Hf) Hin). reflexivity.
  - intros c d Hin. rewrite (dget_cols t c d (proj1 Hf) Hin), cast_same. split; [reflexivity|]. unfold t_column. apply map_length.
Qed.

Lemma as_text_str l : (forall v, In v l -> exists s, v = VStr s) -> map as_text l = l.
Proof. intros H. rewrite <- (map_id l) at 2. apply map_ext_in. intros v Hv. destruct (H v Hv) as (s & ->). reflexivity. Qed.

(** *** csv *)
Lemma string_of_int_Z z : exists i, Z.to_int z = i /\ Z.of_int i = z /\ i <> Decimal.Pos Decimal.Nil /\ i <> Decimal.Neg Decimal.Nil.
Proof.
  exists (Z.to_int z). split; [reflexivity|]. split; [apply DecimalZ.of_to|]. destruct z as [|p|p]; cbn; (split; [|try discriminate]); try discriminate; intros H; injection H as H; pose proof (DecimalPos.Unsigned.to_uint_nonnil p); congruence.
Qed.
Lemma read_show z : read_Z (string_of_Z z) = Some z.
Proof.
  destruct (string_of_int_Z z) as (i & Hi & Hz & H1 & H2). unfold read_Z, string_of_Z. rewrite Hi, NilEmpty.isi. rewrite Hz. destruct i as [[]|[]]; congruence.
Qed.
Lemma read_numeral s z : read_Z s = Some z -> numeral s.
Proof.
  unfold read_Z. destruct (NilEmpty.int_of_string s) as [i|] eqn:E; [|discriminate]. intros H. exists i. pose proof (NilEmpty.sis _ _ E) as Hs. split; [|split; [|exact Hs]]; intros ->; discriminate.
Qed.
Lemma digits_not_na z : ~ In (string_of_Z z) na_words.
Proof.
  intros Hin. pose proof (read_show z) as Hr. cbn [In na_words] in Hin.
  repeat (destruct Hin as [Hin|Hin]; [rewrite <- Hin in Hr; vm_compute in Hr; discriminate|]). destruct Hin.
Qed.
Lemma not_mem s l : ~ In s l -> mem_str s l = false.
Proof. intros H. destruct (mem_str s l) eqn:E; [apply mem_str_In in E; contradiction | reflexivity]. Qed.
Lemma mem_empty : mem_str "" na_words = true. Proof. reflexivity. Qed.

(** fields that are numbers, or empty *)
Lemma read_numbers col : (forall v, In v col -> v = VNull \/ exists z, v = VNum z) ->
  read_column (map show_cell col) = (if existsb (fun v => match v with VNull => true | _ => false end) col then DFloat else DInt, col).
Proof.
  intros H. unfold read_column.
  assert (existsb (fun f => mem_str f na_words) (map show_cell col) = existsb (fun v => match v with VNull => true | _ => false end) col) as ->.
  { induction col as [|v col IH]; [reflexivity|]. cbn [map existsb]. rewrite IH by (intros w Hw; apply H; right; exact Hw). f_equal. destruct (H v (or_introl eq_refl)) as [-> | (z & ->)]; [reflexivity|]. cbn [show_cell]. apply not_mem. apply digits_not_na. }
  assert (forallb (fun f => match read_Z f with Some _ => true | None => false end) (filter (fun f => negb (mem_str f na_words)) (map show_cell col)) = true) as ->.
  { apply forallb_forall. intros f Hf. apply filter_In in Hf as [Hf Hm]. apply in_map_iff in Hf as (v & <- & Hv). destruct (H v Hv) as [-> | (z & ->)]; [discriminate|]. cbn [show_cell]. rewrite read_show. reflexivity. }
  f_equal. rewrite map_map. rewrite <- (map_id col) at 2. apply map_ext_in. intros v Hv. destruct (H v Hv) as [-> | (z & ->)]; [reflexivity|]. cbn [show_cell]. rewrite (not_mem _ _ (digits_not_na z)), read_show. reflexivity.
Qed.

Lemma read_bools v col : (forall w, In w (v :: col) -> exists b, w = VBool b) -> read_column (map show_cell (v :: col)) = (DBool, v :: col).
Proof.
  intros H. set (l := v :: col) in *.
  assert (forall w, In w l -> mem_str (show_cell w) na_words = false /\ read_Z (show_cell w) = None /\ read_bool (show_cell w) = match w with VBool b => Some b | _ => None end) as Hw.
  { intros w Hin. destruct (H w Hin) as ([] & ->); repeat split; reflexivity. }
  assert (filter (fun f => negb (mem_str f na_words)) (map show_cell l) = map show_cell l) as Hfl.
  { assert (forall m, incl m l -> filter (fun f => negb (mem_str f na_words)) (map show_cell m) = map show_cell m) as Hx; [|apply Hx; apply incl_refl].
    induction m as [|a m IH]; intros Hm; [reflexivity|]. cbn [map filter]. rewrite (proj1 (Hw a (Hm a (or_introl eq_refl)))). cbn [negb]. f_equal. apply IH. intros x Hx. apply Hm. right. exact Hx. }
  unfold read_column. rewrite Hfl.
  assert (forallb (fun f => match read_Z f with Some _ => true | None => false end) (map show_cell l) = false) as ->.
  { unfold l at 1. cbn [map forallb]. rewrite (proj1 (proj2 (Hw v (or_introl eq_refl)))). reflexivity. }
  assert (forallb (fun f => match read_bool f with Some _ => true | None => false end) (map show_cell l) = true) as ->.
  { apply forallb_forall. intros f Hf. apply in_map_iff in Hf as (w & <- & Hin). rewrite (proj2 (proj2 (Hw w Hin))). destruct (H w Hin) as (b & ->). reflexivity. }
  assert (existsb (fun f => mem_str f na_words) (map show_cell l) = false) as ->.
  { apply not_true_is_false. intros E. apply existsb_exists in E as (f & Hf & E). apply in_map_iff in Hf as (w & <- & Hin). rewrite (proj1 (Hw w Hin)) in E. discriminate. }
  f_equal. rewrite map_map. rewrite <- (map_id l) at 2. apply map_ext_in. intros w Hin. destruct (Hw w Hin) as (-> & _ & ->). destruct (H w Hin) as (b & ->). reflexivity.
Qed.

Lemma read_texts col : (forall v, In v col -> v = VNull \/ exists s, v = VStr s /\ ~ In s na_words) -> (exists s, In (VStr s) col /\ ~ numeral s) -> (exists s, In (VStr s) col /\ s <> "True" /\ s <> "False") ->
  read_column (map show_cell col) = (DObj, col).
Proof.
  intros H (s1 & H1 & N1) (s2 & H2 & N2 & N3). unfold read_column.
  assert (forall s, In (VStr s) col -> In s (filter (fun f => negb (mem_str f na_words)) (map show_cell col))) as Hin.
  { intros s Hs. apply filter_In. split; [apply in_map_iff; exists (VStr s); auto|]. destruct (H _ Hs) as [Hx | (s' & Hx & Hna)]; [discriminate|]. injection Hx as <-. rewrite (not_mem _ _ Hna). reflexivity. }
  assert (forallb (fun f => match read_Z f with Some _ => true | None => false end) (filter (fun f => negb (mem_str f na_words)) (map show_cell col)) = false) as ->.
  { apply not_true_is_false. intros E. rewrite forallb_forall in E. specialize (E s1 (Hin s1 H1)). destruct (read_Z s1) as [z|] eqn:Ez; [|discriminate]. apply read_numeral in Ez. contradiction. }
  assert (forallb (fun f => match read_bool f with Some _ => true | None => false end) (filter (fun f => negb (mem_str f na_words)) (map show_cell col)) = false) as ->.
  { apply not_true_is_false. intros E. rewrite forallb_forall in E. specialize (E s2 (Hin s2 H2)). unfold read_bool in E. destruct (String.eqb_spec s2 "True"); [contradiction|]. destruct (String.eqb_spec s2 "False"); [contradiction | discriminate]. }
  f_equal. rewrite map_map. rewrite <- (map_id col) at 2. apply map_ext_in. intros v Hv. destruct (H v Hv) as [-> | (s & -> & Hna)]; [reflexivity|]. cbn [show_cell]. rewrite (not_mem _ _ Hna). reflexivity.
Qed.

Lemma mapM_id {A} (f : A -> res A) l : (forall x, In x l -> f x = Ok x) -> mapM f l = Ok l.
Proof. intros H. rewrite (mapM_Ok_map f (fun x => x) l H), map_id. reflexivity. Qed.

Lemma csv_column d col : csv_safe d col -> cast d (fst (read_column (map show_cell col))) (snd (read_column (map show_cell col))) = Ok col.
Proof.
  intros [(-> & H) | [(Hd & H) | [(-> & H) | (-> & H & H1 & H2)]]].
  - rewrite read_numbers by (intros v Hv; right; apply H; exact Hv). cbn [fst snd]. unfold cast. destruct (dtype_eqb _ _); [reflexivity|]. apply mapM_id. intros v Hv. destruct (H v Hv) as (z & ->). reflexivity.
  - rewrite read_numbers by exact H. cbn [fst snd]. unfold cast. destruct (dtype_eqb _ _); [reflexivity|]. apply mapM_id. intros v Hv. destruct Hd as [-> | ->], (H v Hv) as [-> | (z & ->)]; reflexivity.
  - destruct col as [|v col]; [reflexivity|]. rewrite read_bools by exact H. cbn [fst snd]. apply cast_same.
  - rewrite read_texts by assumption. cbn [fst snd]. apply cast_same.
Qed.
Lemma read_column_length l : List.length (snd (read_column l)) = List.length l.
Proof. unfold read_column. destruct (forallb _ _); [|destruct (forallb _ _)]; cbn; apply map_length. Qed.

(** *** any of the formats *)
Lemma framed_col t c d : framed t -> In (c, d) (t_cols t) -> t_dtype t c = Ok d.
Proof. intros [Hn _] Hin. unfold t_dtype. rewrite (dget_cols t c d Hn Hin). reflexivity. Qed.

Lemma read_back f e dr ds : framed (n_tab e) -> safe f e -> ds = t_cols (n_tab e) -> dget String.eqb (location f (n_id e)) dr = Some (entity_file f (n_tab e)) ->
  forall d, d_dtypes d = ds -> read_entity_data dr (mkStored d (location f (n_id e)) f) = Ok (n_tab e).
Proof.
  intros Hf Hs -> Hg d Hd. unfold read_entity_data. cbn [st_format st_location st_descr]. rewrite Hg, Hd. set (t := n_tab e) in *. destruct f as [sep| |]; cbn [entity_file bind].
  - destruct Hs as [-> Hs]. unfold read_csv. rewrite String.eqb_refl.
    assert (forall c, In c (t_names t) -> map (fun l => match dget String.eqb c (combine (t_names t) l) with Some x => x | None => "" end) (map (fun r => map (fun c0 => show_cell (cell c0 r)) (t_names t)) (t_rows t)) = map show_cell (t_column t c)) as Hcol.
    { intros c Hc. unfold t_column. rewrite !map_map. apply map_ext. intros r. rewrite (cell_combine c (fun c0 => show_cell (cell c0 r))); [reflexivity | exact Hc | apply Hf]. }
    rewrite map_length.
    rewrite <- (astype_back t (fun c => fst (read_column (map show_cell (t_column t c)))) (fun c => snd (read_column (map show_cell (t_column t c)))) Hf).
    + f_equal. f_equal. unfold t_names. rewrite map_map. apply map_ext_in. intros [c x] Hin. cbn [fst]. f_equal. fold (t_names t). rewrite Hcol by (apply (in_map fst) in Hin; exact Hin). destruct (read_column _); reflexivity.
    + intros c x Hin. split; [apply csv_column; apply Hs; apply framed_col; assumption|]. rewrite read_column_length, map_length. unfold t_column. apply map_length.
  - etransitivity; [|exact (pickle_back t Hf)]. f_equal. etransitivity; [|exact (frame_eta t Hf)]. f_equal. apply map_ext_in. intros [c x] Hin. cbn [fst snd]. f_equal. f_equal. unfold dtype_eqb. destruct (dtype_eq_dec x DObj) as [->|]; [|reflexivity].
    apply as_text_str. apply (Hs c DObj); [apply framed_col; assumption | reflexivity].
  - apply pickle_back. exact Hf.
Qed.

(** ** Directories *)
Lemma write_all_other d ops p : ~ In p (map fst ops) -> dget String.eqb p (write_all d ops) = dget String.eqb p d.
Proof.
  revert d. induction ops as [|[q f] ops IH]; intros d H; [reflexivity|]. cbn. unfold write_all in IH. rewrite IH by (intros Hx; apply H; right; exact Hx). unfold write. apply (dget_dset_other _ String.eqb_spec). intros E. apply H. left. cbn in *. congruence.
Qed.
Lemma write_all_get d ops p f : NoDup (map fst ops) -> In (p, f) ops -> dget String.eqb p (write_all d ops) = Some f.
Proof.
  revert d. induction ops as [|[q g] ops IH]; intros d Hn Hin; [destruct Hin|]. cbn [map fst] in Hn. inversion Hn as [|? ? Hq Hn']; subst. destruct Hin as [E|Hin].
  - injection E as -> ->. change (write_all d ((p, f) :: ops)) with (write_all (write d (p, f)) ops). rewrite write_all_other by exact Hq. apply (dget_dset_same _ String.eqb_spec).
  - change (write_all d ((q, g) :: ops)) with (write_all (write d (q, g)) ops). apply IH; assumption.
Qed.

Lemma app_str_inj a b c : (a ++ b)%string = (a ++ c)%string -> b = c.
Proof. induction a as [|x a IH]; cbn; intros H; [exact H | injection H; exact IH]. Qed.
Lemma str_len_app a b : String.length (a ++ b)%string = (String.length a + String.length b)%nat.
Proof. induction a as [|x a IH]; cbn; [reflexivity | rewrite IH; reflexivity]. Qed.
Lemma app_str_inj_r b : forall a c, (a ++ b)%string = (c ++ b)%string -> a = c.
Proof.
  induction a as [|x a IH]; destruct c as [|y c]; cbn; intros H; [reflexivity | | | injection H as -> H; f_equal; apply IH; exact H].
  - exfalso. apply (f_equal String.length) in H. cbn in H. rewrite str_len_app in H. lia.
  - exfalso. apply (f_equal String.length) in H. cbn in H. rewrite str_len_app in H. lia.
Qed.
Lemma location_inj f a b : location f a = location f b -> a = b.
Proof. unfold location. intros H. apply app_str_inj in H. eapply app_str_inj_r. exact H. Qed.
Lemma location_not_description f a : location f a <> description_file.
Proof. unfold location, description_file. intros H. assert (String.get 4 ("data/" ++ a ++ "." ++ extension f)%string = String.get 4 "data_description.json") as E by (rewrite H; reflexivity). cbn in E. discriminate. Qed.

Lemma NoDup_app_intro {A} (l l' : list A) : NoDup l -> NoDup l' -> (forall x, In x l -> ~ In x l') -> NoDup (l ++ l').
Proof.
  induction l as [|a l IH]; intros H1 H2 H; [exact H2|]. inversion H1 as [|? ? Ha H1']; subst. cbn. constructor.
  - intros Hin. apply in_app_or in Hin as [Hin|Hin]; [contradiction | apply (H a (or_introl eq_refl) Hin)].
  - apply IH; [exact H1' | exact H2 | intros x Hx; apply H; right; exact Hx].
Qed.
Lemma saves_NoDup f s : NoDup (map n_id (map snd (s_ents s))) -> NoDup (map fst (saves f s)).
Proof.
  intros H. unfold saves. rewrite map_app, map_map. cbn [map fst]. apply NoDup_app_intro; [| constructor; [intros [] | constructor] |].
  - assert (map (fun ie : string * ent => location f (n_id (snd ie))) (s_ents s) = map (location f) (map n_id (map snd (s_ents s)))) as -> by (rewrite !map_map; reflexivity).
    apply FinFun.Injective_map_NoDup; [intros a b; apply location_inj | exact H].
  - intros x Hx [<-|[]]. apply in_map_iff in Hx as (ie & E & _). exact (location_not_description _ _ E).
Qed.
