(** Lemmas about the lineage graph. *)
From Coq Require Import Lia.
From Verif Require Import Base BaseFacts M_Schema M_Feature M_Lineage S_Lineage L_FeatureSet.

Lemma key_eqb_eq a b : key_eqb a b = true <-> a = b.
Proof.
  destruct a as [a1 a2], b as [b1 b2]. unfold key_eqb. cbn [fst snd]. rewrite Bool.andb_true_iff, !String.eqb_eq.
  split; [intros [-> ->]; reflexivity | injection 1 as -> ->; split; reflexivity].
Qed.
Lemma mem_key_In k l : mem_key k l = true <-> In k l.
Proof.
  unfold mem_key. rewrite existsb_exists. split.
  - intros (x & Hx & E). apply key_eqb_eq in E. subst x. exact Hx.
  - intros H. exists k. split; [exact H | apply key_eqb_eq; reflexivity].
Qed.

Fixpoint remove_first {A} (p : A -> bool) (l : list A) : list A :=
  match l with [] => [] | a :: l => if p a then l else a :: remove_first p l end.

Lemma remove_first_In {A} (p : A -> bool) l x : In x (remove_first p l) -> In x l.
Proof.
  induction l as [|a l IH]; cbn [remove_first]; [intros []|]. destruct (p a); [intros H; right; exact H|].
  intros [->|H]; [left; reflexivity | right; apply IH, H].
Qed.
Lemma In_remove_first {A} (p : A -> bool) l x : In x l -> In x (remove_first p l) \/ p x = true.
Proof.
  induction l as [|a l IH]; cbn [remove_first]; [intros []|]. intros [->|H].
  - destruct (p x) eqn:E; [right; reflexivity | left; left; reflexivity].
  - destruct (p a) eqn:E; [left; exact H|]. destruct (IH H) as [H'|H']; [left; right; exact H' | right; exact H'].
Qed.

Lemma fsize_deps f d : In d (fdeps f) -> fsize d < fsize f.
Proof.
  assert (forall (l : list feat) x, In x l -> fsize x <= list_sum (map fsize l)) as HS.
  { induction l as [|a l IH]; intros x; [intros []|]. intros [->|H]; cbn [map list_sum fold_right]; [lia|].
    specialize (IH x H). unfold list_sum in IH. lia. }
  unfold fdeps. destruct f as [e v nm|r b nm|p bs path u wh prev nm|p bs nm|p bs g nm|b n nm]; cbn [fbases fwhere fsize]; rewrite in_app_iff.
  - intros [[]|[]].
  - intros [[<-|[]]|[]]. lia.
  - intros [H|H]; [specialize (HS _ _ H); lia|]. destruct wh as [w|]; [destruct H as [<-|[]]; lia | destruct H].
  - intros [H|[]]. specialize (HS _ _ H). lia.
  - intros [H|[]]. apply in_app_iff in H. destruct H as [H|[<-|[]]]; [specialize (HS _ _ H); lia | lia].
  - intros [[<-|[]]|[]]. lia.
Qed.
Lemma fsize_whole f : fsize (whole f) <= fsize f.
Proof. destruct f; cbn [whole fsize]; lia. Qed.

Section Run.
  Variables (rels : list relationship) (pname : prim -> string) (upper : string -> string).
  Notation key := (fkey rels).
  Notation node x := (col_node (fkey rels x)).

  Definition opening (x : feat) (layer : nat) (st : lin) : lin * string :=
    fold_left (link_step rels (whole x)) (fpath (whole x)) (prim_step rels pname upper (whole x) layer (node x) st).

  Inductive ex : feat -> nat -> lin -> lin -> nat -> Prop :=
  | ex_old f layer st : listed (key f) (add_ent (fentity f) st) = true -> ex f layer st (add_ent (fentity f) st) layer
  | ex_new f layer st st' d : listed (key f) (add_ent (fentity f) st) = false ->
      bd f layer (mark rels f (add_ent (fentity f) st)) st' d -> ex f layer st st' d
  with bd : feat -> nat -> lin -> lin -> nat -> Prop :=
  | bd_plain x layer st st1 base st' d : opening x layer st = (st1, base) -> fgroupby (whole x) = None ->
      vs base layer (fdeps (whole x)) st1 layer st' d -> bd x layer st st' d
  | bd_group x p bs g nm layer st st1 base sg dg st2 base2 st' d : whole x = FGroup p bs g nm ->
      opening x layer st = (st1, base) -> ex g (S layer) st1 sg dg ->
      group_step rels (whole x) (key g) (mark rels g sg, base) = (st2, base2) ->
      vs base2 layer (remove_first (fun b => same_hash rels b g) (bs ++ [g])) st2 layer st' d -> bd x layer st st' d
  with vs : string -> nat -> list feat -> lin -> nat -> lin -> nat -> Prop :=
  | vs_nil base layer st m : vs base layer [] st m st m
  | vs_cons base layer d ds st m st1 d1 st' m' : ex d (S layer) st st1 d1 ->
      vs base layer ds (add_solid (node d) base st1) (Nat.max d1 m) st' m' -> vs base layer (d :: ds) st m st' m'.

  Scheme ex_i := Minimality for ex Sort Prop
    with bd_i := Minimality for bd Sort Prop
    with vs_i := Minimality for vs Sort Prop.
  Combined Scheme run_ind from ex_i, bd_i, vs_i.

  Notation body := (body rels pname upper).
  Notation explore := (explore rels pname upper).

  Lemma explore_ex_of f : (forall layer st, bd f layer st (fst (body (whole f) layer (node f) st)) (snd (body (whole f) layer (node f) st))) ->
    forall layer st, ex f layer st (fst (explore f layer st)) (snd (explore f layer st)).
  Proof.
    intros H layer st. unfold M_Lineage.explore, enter. destruct (listed (key f) (add_ent (fentity f) st)) eqn:E; cbn [fst snd].
    - apply ex_old, E.
    - apply ex_new; [exact E|]. specialize (H layer (mark rels f (add_ent (fentity f) st))). destruct f; exact H.
  Qed.

  Lemma fold_vs base layer ds : forall (st : lin) m,
    (forall d, In d ds -> forall st, ex d (S layer) st (fst (explore d (S layer) st)) (snd (explore d (S layer) st))) ->
    let r := fold_left (fun acc d => dep_step rels base d (snd acc) (explore d (S layer) (fst acc))) ds (st, m) in
    vs base layer ds st m (fst r) (snd r).
  Proof.
    induction ds as [|d ds IH]; intros st m H; cbn [fold_left].
    - apply vs_nil.
    - eapply vs_cons; [apply H; left; reflexivity|].
      unfold dep_step at 2. cbn [fst snd]. unfold dep_step at 3. cbn [fst snd].
      apply IH. intros d' Hd'. apply H. right. exact Hd'.
  Qed.

  Lemma fold_gone base layer g bs : forall acc,
    (let '(acc', gone) := fold_left (fun (ag : lin * nat * bool) d =>
          let '(acc, gone) := ag in
          if negb gone && same_hash rels d g then (acc, true)
          else (dep_step rels base d (snd acc) (explore d (S layer) (fst acc)), gone)) bs (acc, false) in
     if gone then dep_step rels base g (snd acc') (explore g (S layer) (fst acc')) else acc')
    = fold_left (fun acc d => dep_step rels base d (snd acc) (explore d (S layer) (fst acc)))
        (remove_first (fun b => same_hash rels b g) (bs ++ [g])) acc.
  Proof.
    assert (forall bs acc, fold_left (fun (ag : lin * nat * bool) d =>
          let '(acc, gone) := ag in
          if negb gone && same_hash rels d g then (acc, true)
          else (dep_step rels base d (snd acc) (explore d (S layer) (fst acc)), gone)) bs (acc, true)
        = (fold_left (fun acc d => dep_step rels base d (snd acc) (explore d (S layer) (fst acc))) bs acc, true)) as HT.
    { clear bs. induction bs as [|b bs IH]; intros acc; cbn [fold_left negb andb]; [reflexivity | apply IH]. }
    induction bs as [|b bs IH]; intros acc; cbn [fold_left app remove_first].
    - unfold same_hash at 1. rewrite String.eqb_refl. reflexivity.
    - cbn [negb andb]. destruct (same_hash rels b g); [|apply IH].
      rewrite HT. rewrite fold_left_app. reflexivity.
  Qed.

  Lemma body_bd n : forall x, fsize (whole x) < n -> forall layer st,
    bd x layer st (fst (body (whole x) layer (node x) st)) (snd (body (whole x) layer (node x) st)).
  Proof.
    induction n as [|n IH]; intros x Hn; [lia|]. intros layer st.
    assert (forall d, In d (fdeps (whole x)) -> forall st, ex d (S layer) st (fst (explore d (S layer) st)) (snd (explore d (S layer) st))) as HE.
    { intros d Hd. apply explore_ex_of. apply IH. pose proof (fsize_deps _ _ Hd). pose proof (fsize_whole d). lia. }
    clear IH Hn. destruct (opening x layer st) as [st1 base] eqn:EO. pose proof EO as EO'. unfold opening in EO'.
    destruct (whole x) as [e v nm|r b nm|p bs path u wh prev nm|p bs nm|p bs g nm|b k nm] eqn:EW;
      cbn [M_Lineage.body]; destruct (prim_step rels pname upper _ layer (node x) st) as [stp bp]; rewrite EO'.
    - apply bd_plain with st1 base; [exact EO | rewrite EW; reflexivity|]. rewrite EW. apply vs_nil.
    - apply bd_plain with st1 base; [exact EO | rewrite EW; reflexivity|]. rewrite EW.
      exact (fold_vs base layer [b] st1 layer HE).
    - apply bd_plain with st1 base; [exact EO | rewrite EW; reflexivity|]. rewrite EW.
      pose proof (fold_vs base layer (fdeps (FAgg p bs path u wh prev nm)) st1 layer HE) as HF. cbv zeta in HF.
      unfold fdeps at 2 3 in HF. cbn [fbases fwhere] in HF. rewrite fold_left_app in HF.
      destruct wh as [w|]; exact HF.
    - apply bd_plain with st1 base; [exact EO | rewrite EW; reflexivity|]. rewrite EW.
      pose proof (fold_vs base layer (fdeps (FTrans p bs nm)) st1 layer HE) as HF. cbv zeta in HF.
      unfold fdeps at 2 3 in HF. cbn [fbases fwhere] in HF. rewrite app_nil_r in HF. exact HF.
    - assert (In g (fdeps (FGroup p bs g nm))) as Hg.
      { unfold fdeps. cbn [fbases fwhere]. rewrite app_nil_r. apply in_or_app. right. left. reflexivity. }
      destruct (group_step rels (FGroup p bs g nm) (key g) (mark rels g (fst (explore g (S layer) st1)), base)) as [st2 base2] eqn:EG.
      eapply bd_group; [exact EW | exact EO | exact (HE g Hg st1) | rewrite EW; exact EG|].
      pose proof (fold_vs base2 layer (remove_first (fun b => same_hash rels b g) (bs ++ [g])) st2 layer) as HF. cbv zeta in HF.
      rewrite <- fold_gone in HF.
      change (fst (enter rels g (S layer) st1 (fun n s => match g with FSlice c _ _ => body c (S layer) n s | _ => body g (S layer) n s end)))
        with (fst (explore g (S layer) st1)).
      rewrite EG. apply HF. intros d Hd. apply HE. apply remove_first_In in Hd. unfold fdeps. cbn [fbases fwhere]. rewrite app_nil_r. exact Hd.
    - apply bd_plain with st1 base; [exact EO | rewrite EW; reflexivity|]. rewrite EW.
      exact (fold_vs base layer [b] st1 layer HE).
  Qed.

  Lemma explore_ex f layer st : ex f layer st (fst (explore f layer st)) (snd (explore f layer st)).
  Proof. apply explore_ex_of. intros layer' st'. apply (body_bd (S (fsize (whole f)))). lia. Qed.
End Run.
