(** C93: what EntitySet.plot draws, and where it writes it. *)
From Coq Require Import String Ascii List Bool Lia PeanoNat.
From Verif Require Import Base BaseFacts M_Schema M_Plot S_Plot.
Import ListNotations.
Local Open Scope string_scope.
Local Open Scope list_scope.

Lemma sapp_assoc (a b c : string) : ((a ++ b) ++ c = a ++ (b ++ c))%string.
Proof. induction a as [|x a IH]; [reflexivity|]. cbn. rewrite IH. reflexivity. Qed.
Lemma sapp_nil (a : string) : (a ++ "")%string = a.
Proof. induction a as [|x a IH]; [reflexivity|]. cbn. rewrite IH. reflexivity. Qed.
Lemma shows_refl s : shows s s.
Proof. exists "", "". cbn. rewrite sapp_nil. reflexivity. Qed.
Lemma shows_left w p a : shows w p -> shows (a ++ w)%string p.
Proof. intros (x & y & ->). exists (a ++ x)%string, y. rewrite sapp_assoc. reflexivity. Qed.
Lemma shows_right w p b : shows w p -> shows (w ++ b)%string p.
Proof. intros (x & y & ->). exists x, (y ++ b)%string. rewrite !sapp_assoc. reflexivity. Qed.
Lemma concat_shows sep l x : In x l -> shows (String.concat sep l) x.
Proof.
  induction l as [|a l IH]; [intros []|]. cbn [String.concat]. destruct l as [|b l]; [intros [->|[]]; apply shows_refl|]. intros [->|H]; [apply shows_right, shows_refl | apply shows_left, shows_left, IH, H].
Qed.

(** ** C93 *)
(** one node for each entity, that shows its name, its number of rows and its variables with their types *)
Theorem C93_entities es rels : map n_id (pic_nodes (plot es rels)) = map e_id es /\
  forall e, In e es -> exists n, In n (pic_nodes (plot es rels)) /\ n_id n = e_id e /\ shows (n_label n) (e_id e) /\
    (forall k, e_rows e = Some k -> shows (n_label n) (e_id e ++ " (" ++ decimal k ++ " row")%string) /\ (forall v t, In (v, t) (e_vars e) -> shows (n_label n) (v ++ " : " ++ t)%string).
Proof.
  cbn [plot pic_nodes]. split; [rewrite map_map; reflexivity|]. intros e He. exists (mkNode (e_id e) (node_label e)). split; [apply in_map_iff; exists e; auto|]. split; [reflexivity|]. cbn [n_label]. unfold node_label.
  assert (forall v t, In (v, t) (e_vars e) -> shows (vars_text (e_vars e)) (v ++ " : " ++ t)%string) as Hv by (intros v t H; apply concat_shows; apply in_map_iff; exists (v, t); auto).
  destruct (e_rows e) as [k|]; (split; [apply shows_left, shows_right, shows_refl|]); (split; [|intros v t H; specialize (Hv v t H)]).
  - intros k' [= <-]. apply shows_left. exists "", ((if Nat.ltb 1 k then "s" else "") ++ ")|" ++ vars_text (e_vars e) ++ "\l}")%string. change ("" ++ ?x)%string with x. rewrite !sapp_assoc. reflexivity.
  - do 6 apply shows_left. apply shows_left, shows_right. exact Hv.
  - intros k [=].
  - do 3 apply shows_left. apply shows_right. exact Hv.
Qed.
(** one edge for each relationship, from the child to the parent, that shows both variables *)
Theorem C93_relationships es rels : map (fun x => (t_text x, h_text x)) (pic_edges (plot es rels)) = map (fun r => (r_ce r, r_pe r)) rels /\
  forall r, In r rels -> exists x, In x (pic_edges (plot es rels)) /\ t_text x = r_ce r /\ h_text x = r_pe r /\ shows (x_label x) (r_pv r) /\ shows (x_label x) (r_cv r).
Proof.
  cbn [plot pic_edges]. split; [rewrite map_map; reflexivity|]. intros r Hr. exists (mkEdge (r_ce r) (r_pe r) (edge_label r)). split; [apply in_map_iff; exists r; auto|]. split; [reflexivity|]. split; [reflexivity|]. cbn [x_label]. unfold edge_label.
  destruct (String.eqb_spec (r_pv r) (r_cv r)) as [<-|_]; [split; apply shows_refl|]. split; [apply shows_right, shows_refl | apply shows_left, shows_left, shows_refl].
Qed.
Lemma no_colon s : ~ has_char ":" s -> before_colon s = s.
Proof.
  unfold has_char. induction s as [|a s IH]; cbn; [reflexivity|]. intros H. destruct (Ascii.eqb_spec a ":") as [->|_]; [exfalso; apply H; left; reflexivity|]. rewrite IH; [reflexivity | intros Hs; apply H; right; exact Hs].
Qed.
(** edges end at the nodes of their entities when no name has a colon *)
Theorem C93_connected_partial es rels x : (forall r, In r rels -> In (r_ce r) (map e_id es) /\ In (r_pe r) (map e_id es)) -> (forall e, In e es -> ~ has_char ":" (e_id e)) ->
  In x (pic_edges (plot es rels)) -> exists r, In r rels /\ ends x = (r_ce r, r_pe r) /\ In (fst (ends x)) (map n_id (pic_nodes (plot es rels))) /\ In (snd (ends x)) (map n_id (pic_nodes (plot es rels))).
Proof.
  intros Hr Hc Hx. cbn [plot pic_edges] in Hx. apply in_map_iff in Hx as (r & <- & Hin). exists r. destruct (Hr r Hin) as [H1 H2]. rewrite (proj1 (C93_entities es rels)).
  assert (forall s, In s (map e_id es) -> before_colon s = s) as Hb by (intros s Hs; apply in_map_iff in Hs as (e & <- & He); apply no_colon, Hc, He).
  unfold ends. cbn [t_text h_text fst snd]. rewrite (Hb _ H1), (Hb _ H2). auto.
Qed.
(** with a colon in a name, an edge ends at something that is no entity *)
Theorem C93_colon_refuted : exists es rels x, (forall r, In r rels -> In (r_ce r) (map e_id es) /\ In (r_pe r) (map e_id es)) /\ In x (pic_edges (plot es rels)) /\ ~ In (snd (ends x)) (map n_id (pic_nodes (plot es rels))).
Proof.
  exists [mkPe "log" (Some 5) [("id", "index")]; mkPe "shop:users" (Some 2) [("id", "index")]], [mkRel "shop:users" "id" "log" "user"]. eexists. split; [intros r [<-|[]]; cbn; auto|]. split; [left; reflexivity|]. cbn. intuition discriminate.
Qed.
(** different relationships may be drawn alike *)
Theorem C93_label_refuted : exists es r1 r2, r1 <> r2 /\ plot es [r1] = plot es [r2].
Proof. exists [mkPe "a" (Some 1) []; mkPe "b" (Some 1) []], (mkRel "a" "x -> y" "b" "x -> y"), (mkRel "a" "x" "b" "y"). split; [discriminate | reflexivity]. Qed.

(** ** Files *)
Lemma split_nonempty s : split_dot s <> [].
Proof. destruct s as [|a s]; cbn [split_dot]; [discriminate|]. destruct (Ascii.eqb a "."); [discriminate|]. destruct (split_dot s); discriminate. Qed.
Lemma split_none s : ~ has_char "." s -> split_dot s = [s].
Proof.
  unfold has_char. induction s as [|a s IH]; cbn [split_dot list_ascii_of_string In]; [reflexivity|]. intros H. destruct (Ascii.eqb_spec a ".") as [->|_]; [exfalso; apply H; left; reflexivity|]. rewrite IH; [reflexivity | intros Hs; apply H; right; exact Hs].
Qed.
Lemma split_ext s stem ext : has_extension s stem ext -> 2 <= List.length (split_dot s) /\ List.last (split_dot s) "" = ext.
Proof.
  intros [-> He]. induction stem as [|a stem IH].
  - change ("" ++ "." ++ ext)%string with (String "." ext). cbn [split_dot]. rewrite (split_none _ He). cbn. auto.
  - change (String a stem ++ "." ++ ext)%string with (String a (stem ++ "." ++ ext)). cbn [split_dot]. destruct IH as [H1 H2]. destruct (split_dot (stem ++ "." ++ ext)) as [|x l]; [cbn in H1; lia|]. destruct (Ascii.eqb a ".").
    + cbn [List.length] in *. split; [lia|]. cbn [List.last]. exact H2.
    + cbn [List.length] in *. split; [lia|]. destruct l as [|y l]; [cbn in H1; lia|]. exact H2.
Qed.
Lemma split_some s : 2 <= List.length (split_dot s) -> exists stem ext, has_extension s stem ext.
Proof.
  induction s as [|a s IH]; cbn [split_dot]; [cbn; lia|]. intros H. destruct (In_dec Ascii.ascii_dec "."%char (list_ascii_of_string s)) as [Hd|Hd].
  - assert (2 <= List.length (split_dot s)) as H2.
    { clear H IH a. induction s as [|b s IH]; [destruct Hd|]. cbn [split_dot]. destruct (Ascii.eqb_spec b ".") as [->|Hb]; [pose proof (split_nonempty s); destruct (split_dot s); [contradiction | cbn; lia]|]. destruct Hd as [E|Hd]; [congruence|]. specialize (IH Hd). destruct (split_dot s); cbn in *; lia. }
    destruct (IH H2) as (stem & ext & -> & He). exists (String a stem), ext. split; [reflexivity | exact He].
  - destruct (Ascii.eqb_spec a ".") as [->|Ha]; [exists "", s; split; [reflexivity | exact Hd]|]. rewrite (split_none s Hd) in H. cbn in H. lia.
Qed.
Lemma prefix_app stem t : prefix_of (String.length (stem ++ t) - String.length t) (stem ++ t) = stem.
Proof.
  assert (forall p t, String.length (p ++ t)%string = String.length p + String.length t) as Hl by (induction p; intros; cbn; auto). rewrite Hl. replace (String.length stem + String.length t - String.length t) with (String.length stem) by lia.
  induction stem as [|a p IH]; [destruct t; reflexivity|]. cbn. rewrite IH. reflexivity.
Qed.
Lemma dget_remove n k (d : disk) : n <> k -> dget String.eqb n (remove_file k d) = dget String.eqb n d.
Proof.
  intros H. induction d as [|[m v] d IH]; [reflexivity|]. cbn [remove_file filter fst dget]. destruct (String.eqb_spec m k) as [->|Hm]; cbn [negb dget]; [destruct (String.eqb_spec n k); [contradiction | exact IH]|]. destruct (String.eqb n m); [reflexivity | exact IH].
Qed.
(** text with a known extension: the picture is in exactly that file, and only the file named like it without the extension may change as well *)
Theorem C93_saved formats source_of draw es rels s stem ext d : has_extension s stem ext -> In ext formats -> exists d',
  plot_to formats source_of draw es rels (Some (Text s)) d = Ok (plot es rels, d') /\ dget String.eqb s d' = Some (draw (plot es rels)) /\
  forall n, n <> s -> n <> stem -> dget String.eqb n d' = dget String.eqb n d.
Proof.
  intros Hs Hf. destruct (split_ext _ _ _ Hs) as [H1 H2]. unfold plot_to, get_format. destruct (Nat.ltb_spec (List.length (split_dot s)) 2) as [?|_]; [lia|]. rewrite H2. apply mem_str_In in Hf. rewrite Hf. cbn [bind save_graph].
  destruct Hs as [-> He]. assert (prefix_of (String.length (stem ++ "." ++ ext) - (String.length ext + 1)) (stem ++ "." ++ ext) = stem) as Hp.
  { replace (String.length ext + 1) with (String.length ("." ++ ext)) by (cbn; lia). apply prefix_app. }
  rewrite Hp. eexists. split; [reflexivity|]. assert (forall x, (stem ++ String x ext)%string <> stem) as Hne.
  { intros x E. clear - E. induction stem as [|a p IH]; [discriminate|]. injection E as E. exact (IH E). }
  split.
  - rewrite dget_remove by apply Hne. apply (dget_dset_same String.eqb String.eqb_spec).
  - intros n Hn Hst. rewrite dget_remove by exact Hst. rewrite (dget_dset_other String.eqb String.eqb_spec) by exact Hn. apply (dget_dset_other String.eqb String.eqb_spec). exact Hst.
Qed.
(** other text is refused *)
Theorem C93_refused formats source_of draw es rels s d : (forall stem ext, has_extension s stem ext -> ~ In ext formats) ->
  plot_to formats source_of draw es rels (Some (Text s)) d = Err ValueError.
Proof.
  intros H. unfold plot_to, get_format. destruct (Nat.ltb_spec (List.length (split_dot s)) 2) as [?|Hl]; [reflexivity|]. destruct (split_some s Hl) as (stem & ext & Hs). destruct (split_ext _ _ _ Hs) as [_ ->]. specialize (H _ _ Hs). apply mem_str_nIn in H. rewrite H. reflexivity.
Qed.
Definition x_es := [mkPe "users" (Some 2) [("id", "index"); ("age", "numeric")]; mkPe "log" (Some 1) [("id", "index"); ("user", "id")]].
Example C93_nonvacuous : plot x_es [mkRel "users" "id" "log" "user"] =
  mkPic [mkNode "users" "{users (2 rows)|id : index\lage : numeric\l}"; mkNode "log" "{log (1 row)|id : index\luser : id\l}"] [mkEdge "log" "users" "id -> user"] /\
  has_extension "out.d/es.v2.png" "out.d/es.v2" "png" /\
  plot_to ["png"; "pdf"] (fun _ => "dot") (fun _ => "pixels") x_es [] (Some (Text "out.d/es.v2.png")) [("a", "1")] = Ok (plot x_es [], [("a", "1"); ("out.d/es.v2.png", "pixels")]) /\
  plot_to ["png"; "pdf"] (fun _ => "dot") (fun _ => "pixels") x_es [] (Some (Text "out.d/es")) [("a", "1")] = Err ValueError.
Proof. split; [vm_compute; reflexivity|]. split; [split; [reflexivity | intros H; cbn in H; intuition discriminate]|]. split; vm_compute; reflexivity. Qed.
(** a file named like the target without its extension is deleted *)
Theorem C93_deletes_refuted : exists formats es rels s n d d', n <> s /\ dget String.eqb n d <> None /\ plot_to formats (fun _ => "dot") (fun _ => "pixels") es rels (Some (Text s)) d = Ok (plot es rels, d') /\ dget String.eqb n d' = None.
Proof. exists ["png"], x_es, [], "data.png", "data", [("data", "important")]. eexists. split; [discriminate|]. split; [discriminate|]. split; vm_compute; reflexivity. Qed.
(** a Path is not accepted, though its format is read *)
Theorem C93_path_refuted formats source_of draw es rels s stem ext d : has_extension s stem ext -> In ext formats -> plot_to formats source_of draw es rels (Some (Path s)) d = Err TypeError.
Proof.
  intros Hs Hf. destruct (split_ext _ _ _ Hs) as [H1 H2]. unfold plot_to, get_format. destruct (Nat.ltb_spec (List.length (split_dot s)) 2) as [?|_]; [lia|]. rewrite H2. apply mem_str_In in Hf. rewrite Hf. reflexivity.
Qed.
Print Assumptions C93_entities.
Print Assumptions C93_relationships.
Print Assumptions C93_connected_partial.
Print Assumptions C93_colon_refuted.
Print Assumptions C93_label_refuted.
Print Assumptions C93_saved.
Print Assumptions C93_refused.
Print Assumptions C93_deletes_refuted.
Print Assumptions C93_path_refuted.
