(** C79: the distance between two places is the length of the shortest way along the surface of the earth. *)
From Coq Require Import Reals Lra Psatz.
From Verif Require Import Base BaseFacts M_Geo S_Geo.
Local Open Scope R_scope.

(** ** Geometry *)
Lemma dot_sym p q : dot p q = dot q p.
Proof. unfold dot. ring. Qed.
Lemma sc x : sin x * sin x + cos x * cos x = 1.
Proof. pose proof (sin2_cos2 x) as H. unfold Rsqr in H. exact H. Qed.
Lemma point_unit a b : dot (point a b) (point a b) = 1.
Proof.
  unfold dot, point. cbn [vx vy vz]. set (f := a * PI / 180). set (l := b * PI / 180). pose proof (sc f). pose proof (sc l). nra.
Qed.
(** four times the haversine is the square of the chord *)
Lemma hav_dot a b c d : hav (radians a) (radians b) (radians c) (radians d) = (1 - dot (point a b) (point c d)) / 2.
Proof.
  unfold hav, radians, dot, point. cbn [vx vy vz]. set (f := a * PI / 180). set (l := b * PI / 180). set (g := c * PI / 180). set (m := d * PI / 180).
  assert (forall x, (sin (x / 2))^2 = (1 - cos x) / 2) as Hh.
  { intros x. replace (cos x) with (cos (2 * (x / 2))) by (f_equal; lra). rewrite cos_2a_sin. lra. }
  rewrite !Hh. rewrite !cos_minus. field.
Qed.
Lemma dot_bound p q : dot p p = 1 -> dot q q = 1 -> -1 <= dot p q <= 1.
Proof.
  unfold dot. destruct p as [a b c], q as [d e f]. cbn [vx vy vz]. intros H1 H2.
  assert (0 <= (a - d)^2 + (b - e)^2 + (c - f)^2) by (pose proof (pow2_ge_0 (a - d)); pose proof (pow2_ge_0 (b - e)); pose proof (pow2_ge_0 (c - f)); lra).
  assert (0 <= (a + d)^2 + (b + e)^2 + (c + f)^2) by (pose proof (pow2_ge_0 (a + d)); pose proof (pow2_ge_0 (b + e)); pose proof (pow2_ge_0 (c + f)); lra).
  split; nra.
Qed.
Lemma points_bound a b c d : -1 <= dot (point a b) (point c d) <= 1.
Proof. apply dot_bound; apply point_unit. Qed.

Lemma distance_value u a b c d : distance u a b c d = Some (radius_earth u * angle (point a b) (point c d)).
Proof.
  unfold distance. rewrite hav_dot. pose proof (points_bound a b c d) as Hb. unfold angle. set (x := dot (point a b) (point c d)) in *.
  set (y := (1 - x) / 2). assert (0 <= y <= 1) as Hy by (unfold y; lra).
  unfold np_sqrt. destruct (Rlt_dec y 0) as [Hn|_]; [lra|].
  assert (0 <= sqrt y <= 1) as Hs.
  { split; [apply sqrt_pos|]. rewrite <- sqrt_1. apply sqrt_le_1_alt. lra. }
  unfold np_arcsin. destruct (Rle_dec (-1) (sqrt y)) as [_|Hn]; [|lra]. destruct (Rle_dec (sqrt y) 1) as [_|Hn]; [|lra]. cbn [lift1]. f_equal.
  rewrite Rmult_assoc. f_equal.
  assert (0 <= asin (sqrt y) <= PI / 2) as Ha.
  { pose proof (asin_bound (sqrt y)) as B. split; [|lra]. destruct (Rle_lt_dec 0 (asin (sqrt y))) as [H|H]; [exact H|]. exfalso.
    pose proof (sin_asin (sqrt y) ltac:(lra)) as E. pose proof (sin_lt_0_var (asin (sqrt y)) ltac:(pose proof PI_RGT_0; lra) H). lra. }
  rewrite <- (acos_cos (2 * asin (sqrt y))) by lra. f_equal. rewrite cos_2a_sin, sin_asin by lra. rewrite Rmult_assoc, sqrt_sqrt by lra. unfold y. lra.
Qed.

(** *** The distance is the length of the shortest arc on a sphere of the radius of the earth; it is never NaN. *)
Theorem C79_distance u a b c d : distance u a b c d = Some (radius_earth u * angle (point a b) (point c d)).
Proof. apply distance_value. Qed.

Lemma radius_pos u : 0 < radius_earth u.
Proof. destruct u; cbn; lra. Qed.

(** *** The order of the two places does not matter (the primitive is declared commutative, so only one order is made). *)
Theorem C79_symmetric u a b c d : distance u a b c d = distance u c d a b.
Proof. rewrite !distance_value. unfold angle. rewrite dot_sym. reflexivity. Qed.

(** *** The distance is between nothing and half the way round; nothing exactly for one point. *)
Theorem C79_range u a b c d x : distance u a b c d = Some x -> 0 <= x <= radius_earth u * PI /\ (x = 0 <-> point a b = point c d).
Proof.
  rewrite distance_value. intros H. injection H as <-. pose proof (radius_pos u) as Hr. unfold angle. pose proof (acos_bound (dot (point a b) (point c d))) as B.
  split; [split; [nra|]; apply Rmult_le_compat_l; lra|]. split.
  - intros H. assert (acos (dot (point a b) (point c d)) = 0) as E by (apply Rmult_integral in H as [H|H]; lra).
    pose proof (cos_acos _ (points_bound a b c d)) as C. rewrite E, cos_0 in C. pose proof (point_unit a b) as U. pose proof (point_unit c d) as V.
    destruct (point a b) as [p1 p2 p3], (point c d) as [q1 q2 q3]. unfold dot in *. cbn [vx vy vz] in *.
    assert ((p1 - q1)^2 + (p2 - q2)^2 + (p3 - q3)^2 = 0) as Z by nra.
    pose proof (pow2_ge_0 (p1 - q1)). pose proof (pow2_ge_0 (p2 - q2)). pose proof (pow2_ge_0 (p3 - q3)).
    assert (forall t, t^2 = 0 -> t = 0) as Hz by (intros t Ht; nra).
    f_equal; apply Rminus_diag_uniq; apply Hz; lra.
  - intros ->. rewrite point_unit, acos_1. ring.
Qed.

(** the angles between three points *)
Lemma angle_triangle p q r : dot p p = 1 -> dot q q = 1 -> dot r r = 1 -> angle p r <= angle p q + angle q r.
Proof.
  intros Hp Hq Hr. unfold angle. pose proof (dot_bound p q Hp Hq) as B1. pose proof (dot_bound q r Hq Hr) as B2. pose proof (dot_bound p r Hp Hr) as B3.
  pose proof (acos_bound (dot p q)) as A1. pose proof (acos_bound (dot q r)) as A2. pose proof (acos_bound (dot p r)) as A3.
  destruct (Rle_lt_dec (acos (dot p q) + acos (dot q r)) PI) as [Hs|Hs]; [|lra].
  destruct (Rle_lt_dec (acos (dot p r)) (acos (dot p q) + acos (dot q r))) as [H|H]; [exact H|]. exfalso.
  assert (cos (acos (dot p r)) < cos (acos (dot p q) + acos (dot q r))) as Hc by (apply cos_decreasing_1; lra).
  rewrite cos_acos in Hc by exact B3. rewrite cos_plus, !cos_acos in Hc by assumption.
  assert (0 <= sin (acos (dot p q))) as S1 by (apply sin_ge_0; lra). assert (0 <= sin (acos (dot q r))) as S2 by (apply sin_ge_0; lra).
  pose proof (sc (acos (dot p q))) as E1. rewrite !cos_acos in E1 by exact B1. pose proof (sc (acos (dot q r))) as E2. rewrite !cos_acos in E2 by exact B2.
  set (s := sin (acos (dot p q))) in *. set (t := sin (acos (dot q r))) in *.
  assert (0 <= 1 + 2 * dot p q * dot q r * dot p r - dot p q * dot p q - dot q r * dot q r - dot p r * dot p r) as G.
  { destruct p as [a b c], q as [d e f], r as [g h i]. unfold dot in *. cbn [vx vy vz] in *.
    pose proof (pow2_ge_0 (a * (e * i - f * h) - b * (d * i - f * g) + c * (d * h - e * g))) as D.
    replace ((a * (e * i - f * h) - b * (d * i - f * g) + c * (d * h - e * g)) ^ 2) with
      ((a*a+b*b+c*c)*(d*d+e*e+f*f)*(g*g+h*h+i*i) + 2*(a*d+b*e+c*f)*(d*g+e*h+f*i)*(a*g+b*h+c*i) - (g*g+h*h+i*i)*(a*d+b*e+c*f)*(a*d+b*e+c*f)
       - (a*a+b*b+c*c)*(d*g+e*h+f*i)*(d*g+e*h+f*i) - (d*d+e*e+f*f)*(a*g+b*h+c*i)*(a*g+b*h+c*i)) in D by ring.
    rewrite Hp, Hq, Hr in D. lra. }
  set (x := dot p q) in *. set (y := dot q r) in *. set (z := dot p r) in *.
  assert ((x * y - z) * (x * y - z) <= (s * t) * (s * t)) as K.
  { replace ((s * t) * (s * t)) with ((s * s) * (t * t)) by ring. replace (s * s) with (1 - x * x) by lra. replace (t * t) with (1 - y * y) by lra. nra. }
  assert (0 <= s * t) as St by (apply Rmult_le_pos; assumption). nra.
Qed.

(** *** No way over a third place is shorter. *)
Theorem C79_triangle u a b c d e f x y z :
  distance u a b e f = Some z -> distance u a b c d = Some x -> distance u c d e f = Some y -> z <= x + y.
Proof.
  rewrite !distance_value. intros H1 H2 H3. injection H1 as <-. injection H2 as <-. injection H3 as <-. rewrite <- Rmult_plus_distr_l.
  apply Rmult_le_compat_l; [pose proof (radius_pos u); lra|]. apply angle_triangle; apply point_unit.
Qed.

(** *** Going round the earth changes nothing; kilometers are a fixed multiple of miles. *)
Theorem C79_turn u a b c d : distance u a (b + 360) c d = distance u a b c d.
Proof.
  rewrite !distance_value. do 2 f_equal. unfold angle, point. replace ((b + 360) * PI / 180) with (b * PI / 180 + 2 * PI) by lra. rewrite cos_plus, sin_plus, cos_2PI, sin_2PI.
  unfold dot. cbn [vx vy vz]. f_equal. ring.
Qed.
Theorem C79_units a b c d x : distance Miles a b c d = Some x -> distance Kilometers a b c d = Some (x * (63710088 / 39587613)).
Proof. rewrite !distance_value. intros H. injection H as <-. f_equal. cbn [radius_earth]. field. Qed.

(** ** Columns *)
(** the rows without a place have labels that the range 0 to len - 1 contains *)
Definition labelled (c : gcol) : Prop := forall l, In (l, Lost) c -> in_range (List.length c) l = true.
Definition lat_of (p : place) : num := match p with At a _ => a | Lost => None end.
Definition lon_of (p : place) : num := match p with At _ b => b | Lost => None end.

Lemma hasnans_false c r : hasnans c = false -> In r c -> lost (snd r) = false.
Proof.
  intros H Hin. destruct (lost (snd r)) eqn:E; [|reflexivity]. enough (hasnans c = true) by congruence. apply existsb_exists. eauto.
Qed.
Lemma items_filled (f : place -> res num) (g : place -> num) c : (forall p, lost p = false -> f p = Ok (g p)) -> g Lost = None -> g (At None None) = None ->
  labelled c -> mapM (fun r => f (snd r)) (filled c) = Ok (map (fun r => g (snd r)) c).
Proof.
  intros Hf Hl Ha Hc. unfold filled. destruct (hasnans c) eqn:En.
  - unfold replace_latlong_nan, labelled in *. revert Hc. generalize (List.length c). clear En. intros n Hc. induction c as [|[l p] c IH]; [reflexivity|]. cbn [map mapM fst snd].
    destruct p as [|a b]; cbn [lost].
    + rewrite (Hc l (or_introl eq_refl)). rewrite Hf by reflexivity. cbn [bind]. rewrite IH by (intros l' H'; apply Hc; right; exact H'). cbn [bind]. rewrite Ha, Hl. reflexivity.
    + rewrite Hf by reflexivity. cbn [bind]. rewrite IH by (intros l' H'; apply Hc; right; exact H'). reflexivity.
  - pose proof (fun r => hasnans_false c r En) as Hn. clear En Hc. induction c as [|r c IH]; [reflexivity|]. cbn [map mapM]. rewrite Hf by (apply Hn; left; reflexivity). cbn [bind].
    rewrite IH by (intros r' H'; apply Hn; right; exact H'). reflexivity.
Qed.
Lemma items_lost (f : place -> res num) c l : f Lost = Err TypeError -> In (l, Lost) c -> in_range (List.length c) l = false -> exists e, mapM (fun r => f (snd r)) (filled c) = Err e.
Proof.
  intros Hf Hin Hr. unfold filled. assert (hasnans c = true) as -> by (apply existsb_exists; exists (l, Lost); split; [exact Hin | reflexivity]).
  unfold replace_latlong_nan. revert Hr. generalize (List.length c). intros n Hr. induction c as [|[l' p] c IH]; [destruct Hin|]. cbn [map mapM fst snd].
  destruct Hin as [E|Hin].
  - injection E as -> ->. cbn [lost]. rewrite Hr, Hf. cbn [bind]. eauto.
  - destruct (IH Hin) as (e & E). destruct (f (if lost p then if in_range n l' then At None None else Lost else p)); cbn [bind]; [|eauto]. rewrite E. cbn [bind]. eauto.
Qed.

(** *** Latitude, longitude and distance of every row; missing where a place is missing. *)
Theorem C79_columns_partial u c1 c2 : labelled c1 -> labelled c2 -> List.length c1 = List.length c2 ->
  latitude c1 = Ok (map (fun r => lat_of (snd r)) c1) /\ longitude c1 = Ok (map (fun r => lon_of (snd r)) c1) /\
  exists ds, haversine u c1 c2 = Ok ds /\ List.length ds = List.length c1 /\
    forall i l1 l2 p q, nth_error c1 i = Some (l1, p) -> nth_error c2 i = Some (l2, q) ->
      nth_error ds i = Some (match p, q with At (Some a) (Some b), At (Some c) (Some d) => distance u a b c d | _, _ => None end).
Proof.
  intros H1 H2 Hlen.
  assert (forall c, labelled c -> mapM (fun r => item0 (snd r)) (filled c) = Ok (map (fun r => lat_of (snd r)) c)) as Hlat by (intros c Hc; apply items_filled; [intros [|]; [discriminate | reflexivity] | reflexivity | reflexivity | exact Hc]).
  assert (forall c, labelled c -> mapM (fun r => item1 (snd r)) (filled c) = Ok (map (fun r => lon_of (snd r)) c)) as Hlon by (intros c Hc; apply items_filled; [intros [|]; [discriminate | reflexivity] | reflexivity | reflexivity | exact Hc]).
  split; [apply Hlat; exact H1|]. split; [apply Hlon; exact H1|]. unfold haversine. rewrite !Hlat, !Hlon by assumption. cbn [bind]. eexists. split; [reflexivity|].
  clear H1 H2 Hlat Hlon. revert c2 Hlen. induction c1 as [|[l1 p] c1 IH]; intros [|[l2 q] c2] Hlen; cbn in Hlen; try discriminate.
  - split; [reflexivity|]. intros [|i] ? ? ? ? H; discriminate.
  - injection Hlen as Hlen. destruct (IH c2 Hlen) as [L Hi]. cbn. split; [f_equal; exact L|]. intros [|i] m1 m2 p' q' E1 E2; cbn in E1, E2 |- *.
    + injection E1 as <- <-. injection E2 as <- <-. f_equal. destruct p as [|[a|] [b|]], q as [|[c|] [d|]]; reflexivity.
    + apply (Hi i m1 m2); assumption.
Qed.

(** *** A missing place whose label is not a row number: the whole calculation fails. *)
Theorem C79_columns_refuted u c1 c2 l : In (l, Lost) c1 -> (forall k, (0 <= k < Z.of_nat (List.length c1))%Z -> l <> VNum k) ->
  (exists e, latitude c1 = Err e) /\ (exists e, longitude c1 = Err e) /\ (exists e, haversine u c1 c2 = Err e).
Proof.
  intros Hin Hno. assert (in_range (List.length c1) l = false) as Hr.
  { destruct l; try reflexivity. cbn [in_range]. destruct (Z.leb_spec 0 z), (Z.ltb_spec z (Z.of_nat (List.length c1))); try reflexivity. exfalso. apply (Hno z); [lia | reflexivity]. }
  destruct (items_lost item0 c1 l eq_refl Hin Hr) as (e & E). destruct (items_lost item1 c1 l eq_refl Hin Hr) as (e' & E').
  split; [eauto|]. split; [eauto|]. unfold haversine. rewrite E. cbn [bind]. eauto.
Qed.
Local Open Scope string_scope.
Example C79_nonvacuous : let good := [(VNum 1, At (Some 10) (Some 20)); (VNum 0, Lost)] in let bad := [(VStr "paris", Lost); (VStr "rome", At (Some 10) (Some 20))] in
  labelled good /\ latitude good = Ok [Some 10; None] /\ longitude good = Ok [Some 20; None] /\ latitude bad = Err TypeError /\ in_range (List.length bad) (VStr "paris") = false.
Proof.
  cbn. split; [|repeat split]. intros l [H|[H|[]]]; [discriminate | injection H as <-; reflexivity].
Qed.
(** from the north pole to the equator is a quarter of the way round *)
Example C79_quarter : distance Miles 90 0 0 0 = Some (radius_earth Miles * (PI / 2)).
Proof.
  rewrite C79_distance. do 2 f_equal. unfold angle, dot, point. cbn [vx vy vz]. replace (90 * PI / 180) with (PI / 2) by lra. replace (0 * PI / 180) with 0 by lra.
  rewrite cos_PI2, sin_PI2, sin_0, cos_0. replace (0 * 1 * (1 * 1) + 0 * 0 * (1 * 0) + 1 * 0) with 0 by ring. apply acos_0.
Qed.
Print Assumptions C79_distance.
Print Assumptions C79_symmetric.
Print Assumptions C79_range.
Print Assumptions C79_triangle.
Print Assumptions C79_turn.
Print Assumptions C79_units.
Print Assumptions C79_columns_partial.
Print Assumptions C79_columns_refuted.
