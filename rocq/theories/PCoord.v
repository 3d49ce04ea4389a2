(** Properties C81-C83, C109-C111: coordinate changes and closed-form error helpers. *)
From Coq Require Import Reals Lra Lia List Psatz Arith.
From Verif Require Import RVec Trig SpecPlane MPca LSvd LPca LFit LAngles LFit2 MSphere LRecon LNum MConics SpecConics LConics LSlice MStereo PStereo MCoord.
Import ListNotations.
Notation length := List.length.
Open Scope R_scope.

(** * C81 *)
(** the frame change, on vectors *)
Lemma from_vec : forall p, exists q, from_stereonet p = Some q /\
  sph2cart q = V3 (vy (sph2cart p)) (vz (sph2cart p)) (- vx (sph2cart p)).
Proof.
  intros p. unfold from_stereonet. apply cart2sph_spec. pose proof (sph2cart_unit p) as U. unfold unit3 in *; vunf. lra.
Qed.
Lemma to_vec : forall p, exists q, to_stereonet p = Some q /\
  sph2cart q = V3 (- vz (sph2cart p)) (vx (sph2cart p)) (vy (sph2cart p)).
Proof.
  intros p. unfold to_stereonet. apply cart2sph_spec. pose proof (sph2cart_unit p) as U. unfold unit3 in *; vunf. lra.
Qed.
Lemma cart2sph_range : forall v p, cart2sph v = Some p -> - PI < fst p <= PI /\ - (PI / 2) <= snd p <= PI / 2.
Proof.
  intros v p H. unfold cart2sph in H. destruct (Req_EM_T (norm v) 0); [discriminate|]. injection H as <-. cbn [fst snd].
  split; [apply atan2_bound|apply asin_bound].
Qed.
(** angles inside the chart are determined by the direction *)
Lemma chart : forall lon lat lon' lat', - PI < lon <= PI -> - (PI / 2) < lat < PI / 2 -> - PI < lon' <= PI -> - (PI / 2) <= lat' <= PI / 2 ->
  sph2cart (lon', lat') = sph2cart (lon, lat) -> (lon', lat') = (lon, lat).
Proof.
  intros lon lat lon' lat' HL HA HL' HA' E. unfold sph2cart in E. injection E as E1 E2 E3.
  assert (lat' = lat) by (rewrite <- (asin_sin lat), <- (asin_sin lat'), E3 by lra; reflexivity). subst lat'.
  assert (C : 0 < cos lat) by (apply cos_gt_0; lra).
  assert (cos lon' = cos lon) by (apply Rmult_eq_reg_l with (cos lat); lra).
  assert (sin lon' = sin lon) by (apply Rmult_eq_reg_l with (cos lat); lra).
  f_equal. apply angle_unique; auto.
Qed.
Theorem C81_round_trip : forall p,
  (exists q p', from_stereonet p = Some q /\ to_stereonet q = Some p' /\ sph2cart p' = sph2cart p /\
    (- PI < fst p <= PI -> - (PI / 2) < snd p < PI / 2 -> p' = p)) /\
  (exists q p', to_stereonet p = Some q /\ from_stereonet q = Some p' /\ sph2cart p' = sph2cart p /\
    (- PI < fst p <= PI -> - (PI / 2) < snd p < PI / 2 -> p' = p)).
Proof.
  intros p. split.
  - destruct (from_vec p) as (q & E & S). destruct (to_vec q) as (p' & E' & S').
    assert (X : sph2cart p' = sph2cart p) by (rewrite S', S; cbn [vx vy vz]; rewrite Ropp_involutive; now destruct (sph2cart p)).
    exists q, p'. repeat split; auto. intros L A. pose proof (cart2sph_range _ _ E') as [L' A'].
    destruct p, p'. now apply chart.
  - destruct (to_vec p) as (q & E & S). destruct (from_vec q) as (p' & E' & S').
    assert (X : sph2cart p' = sph2cart p) by (rewrite S', S; cbn [vx vy vz]; rewrite Ropp_involutive; now destruct (sph2cart p)).
    exists q, p'. repeat split; auto. intros L A. pose proof (cart2sph_range _ _ E') as [L' A'].
    destruct p, p'. now apply chart.
Qed.
(** the vertical stereonet axis is the horizontal x axis of the other frame, reversed *)
Theorem C81_axes : forall p q, from_stereonet p = Some q ->
  (sph2cart p = ex -> sph2cart q = vneg ez) /\ (sph2cart p = ey -> sph2cart q = ex) /\ (sph2cart p = ez -> sph2cart q = ey).
Proof.
  intros p q H. destruct (from_vec p) as (q' & E & S). rewrite E in H. injection H as <-.
  repeat split; intros X; rewrite S, X; apply vec3_eq; cbn; ring.
Qed.
(** [cartesian] is the inverse of reading longitude and latitude off a vector with north
    up: a unit vector, horizontal exactly on the equator, whose angles are those given. *)
Theorem C81_cartesian : forall lon lat, - PI < lon <= PI -> - (PI / 2) < lat < PI / 2 ->
  let v := lonlat_cartesian lon lat in
  nrm2 v = 1 /\ (vz v = 0 <-> lat = 0) /\ atan2 (vy v) (vx v) = lon /\ asin (vz v) = lat.
Proof.
  intros lon lat L A v. assert (C : 0 < cos lat) by (apply cos_gt_0; lra).
  unfold v, lonlat_cartesian. cbn [vx vy vz]. repeat split.
  - unfold nrm2. vunf. pose proof (sin2_cos2 lon) as X. pose proof (sin2_cos2 lat) as Y. unfold Rsqr in *.
    transitivity (cos lat * cos lat * (sin lon * sin lon + cos lon * cos lon) + sin lat * sin lat); [ring|rewrite X; lra].
  - intros S. rewrite <- (asin_sin lat), S by lra. apply asin_0.
  - intros ->. apply sin_0.
  - now apply atan2_of_polar.
  - apply asin_sin. lra.
Qed.
Example C81_ex : sph2cart (0, 0) = ex /\ from_stereonet (0, 0) = Some (0, - (PI / 2)).
Proof.
  unfold from_stereonet, sph2cart. rewrite cos_0, sin_0. split; [apply vec3_eq; cbn; ring|]. cbn [vx vy vz].
  unfold cart2sph. cbn [vx vy vz].
  assert (N : norm (V3 (1 * 0) 0 (- (1 * 1))) = 1).
  { unfold norm, nrm2, dot. cbn [vx vy vz]. replace (_ + _) with 1 by ring. apply sqrt_1. }
  rewrite N. destruct (Req_EM_T 1 0); [lra|]. f_equal. f_equal.
  - replace (1 * 0) with 0 by ring. apply atan2_00.
  - replace (- (1 * 1) / 1) with (-1) by field. replace (-1) with (- (1)) by ring. rewrite asin_opp, asin_1. reflexivity.
Qed.

(** * C109 *)
Definition triple (a b c : vec3) : R := dot (cross a b) c.
Theorem C109_handedness : forall a b c a' b' c',
  from_stereonet a = Some a' -> from_stereonet b = Some b' -> from_stereonet c = Some c' ->
  triple (sph2cart a') (sph2cart b') (sph2cart c') = - triple (sph2cart a) (sph2cart b) (sph2cart c) /\
  dot (sph2cart a') (sph2cart b') = dot (sph2cart a) (sph2cart b).
Proof.
  intros a b c a' b' c' Ha Hb Hc.
  destruct (from_vec a) as (x & E & S). rewrite E in Ha. injection Ha as <-.
  destruct (from_vec b) as (y & E' & S'). rewrite E' in Hb. injection Hb as <-.
  destruct (from_vec c) as (z & E'' & S''). rewrite E'' in Hc. injection Hc as <-.
  rewrite S, S', S''. unfold triple, dot, cross. cbn [vx vy vz]. split; ring.
Qed.
Theorem C109_matrix_differs : forall p q, from_stereonet p = Some q ->
  (sph2cart q = mv stereonet_transformation (sph2cart p) <-> vx (sph2cart p) = 0 /\ vy (sph2cart p) = vz (sph2cart p)).
Proof.
  intros p q H. destruct (from_vec p) as (q' & E & S). rewrite E in H. injection H as <-. rewrite S.
  generalize (sph2cart p). intros [x y z]. unfold mv, stereonet_transformation, dot. cbn [r0 r1 r2 vx vy vz]. split.
  - intros X. injection X as X1 X2 X3. lra.
  - intros [-> ->]. apply vec3_eq; cbn [vx vy vz]; ring.
Qed.
Example C109_ex : exists q, from_stereonet (0, 0) = Some q /\ sph2cart q <> mv stereonet_transformation (sph2cart (0, 0)).
Proof.
  exists (0, - (PI / 2)). pose proof C81_ex as [A B]. split; auto. intros X. apply (C109_matrix_differs _ _ B) in X.
  rewrite A in X. cbn in X. lra.
Qed.

(** * C82 *)
Lemma spherical_ok : forall c, c <> vzero -> exists s, spherical1 c = Some s /\ vx s = norm c /\ 0 <= vy s <= PI /\
  - PI < vz s <= PI /\ cartesian1 s = V3 (vy c) (vx c) (vz c).
Proof.
  intros c NZ. assert (P : 0 < norm c).
  { pose proof (norm_nonneg c). destruct (Req_dec (norm c) 0) as [h|h]; [|lra]. apply norm_zero_iff in h. contradiction. }
  unfold spherical1, fdiv. destruct (Req_EM_T (norm c) 0); [lra|]. eexists. split; [reflexivity|]. cbn [vx vy vz].
  split; auto. split; [apply acos_bound|]. split; [apply atan2_bound|].
  assert (Q : norm c * norm c = vx c * vx c + vy c * vy c + vz c * vz c) by (rewrite norm_sqr; reflexivity).
  set (r := norm c) in *. destruct c as [x y z]. cbn [vx vy vz] in *.
  assert (ZB : -1 <= z / r <= 1).
  { split; [apply Rmult_le_reg_r with r|apply Rmult_le_reg_r with r]; auto; unfold Rdiv; rewrite Rmult_assoc, Rinv_l by lra; nra. }
  unfold cartesian1. cbn [vx vy vz]. rewrite cos_acos' by auto. rewrite sin_acos by auto.
  assert (SQ : r * sqrt (1 - (z / r)²) = sqrt (x * x + y * y)).
  { rewrite <- (sqrt_sq_pos r) at 1 by lra. rewrite <- sqrt_mult_alt by nra. f_equal. unfold Rsqr. field_simplify; [|lra]. lra. }
  rewrite SQ. destruct (Req_EM_T (x * x + y * y) 0) as [h|h].
  - assert (x = 0) by nra. assert (y = 0) by nra. subst. rewrite h, sqrt_0. apply vec3_eq; cbn [vx vy vz]; try ring. field; lra.
  - assert (0 < sqrt (x * x + y * y)) by (apply sqrt_lt_R0; nra).
    rewrite cos_atan2, sin_atan2 by (destruct (Req_EM_T x 0); [right; nra|auto]).
    apply vec3_eq; cbn [vx vy vz]; field; lra.
Qed.
(** x and y trade places *)
Theorem C82_swap : forall c, c <> vzero -> exists s, spherical1 c = Some s /\ vx s = norm c /\
  cartesian1 s = V3 (vy c) (vx c) (vz c) /\ (cartesian1 s = c <-> vx c = vy c).
Proof.
  intros c NZ. destruct (spherical_ok c NZ) as (s & E & R & _ & _ & S). exists s. repeat split; auto.
  - rewrite S. intros X. apply (f_equal vx) in X. cbn in X. lra.
  - intros X. rewrite S. destruct c as [x y z]. cbn in *. now subst.
Qed.
(** fed directly into cartesian, only three points survive the unpacking *)
Theorem C82_layout : forall c rows, spherical c = map Some rows ->
  (length c <> 3%nat -> cartesian (map row_of rows) = Raise ValueError) /\
  (length c = 3%nat -> exists out, cartesian (map row_of rows) = Ok out).
Proof.
  intros c rows H. assert (L : length rows = length c) by (apply (f_equal (@length _)) in H; unfold spherical in H; rewrite !map_length in H; auto).
  rewrite <- L. clear. destruct rows as [|a [|b [|d [|e t]]]]; split; intros K; try (cbn in K; lia); try reflexivity.
  cbn. eauto.
Qed.
(** and they are not the points that went in, in either order of x and y *)
Theorem C82_three_points_refuted : exists c rows out, length c = 3%nat /\ spherical c = map Some rows /\
  cartesian (map row_of rows) = Ok out /\ out <> c /\ out <> map (fun v => V3 (vy v) (vx v) (vz v)) c.
Proof.
  exists [ex; ex; ex], [V3 1 (PI / 2) 0; V3 1 (PI / 2) 0; V3 1 (PI / 2) 0]. eexists. split; [reflexivity|]. split.
  - assert (E : spherical1 ex = Some (V3 1 (PI / 2) 0)).
    { assert (N : norm ex = 1) by (apply norm_unit; unfold unit3; vunf; ring).
      unfold spherical1, fdiv. rewrite N. destruct (Req_EM_T 1 0); [lra|]. cbn [ex vx vy vz].
      replace (0 / 1) with 0 by field. rewrite acos_0. rewrite atan2_pos by lra. replace (0 / 1) with 0 by field. now rewrite atan_0. }
    unfold spherical. cbn [map]. now rewrite E.
  - split; [reflexivity|]. cbn [map row_of vx vy vz combine ex]. unfold cartesian1. cbn [vx vy vz]. rewrite sin_0, cos_0.
    split; intros X; apply (f_equal (fun l => nth 2 l vzero)) in X; cbn [nth] in X; injection X as X1 X2 X3; lra.
Qed.
Example C82_ex : V3 1 2 3 <> vzero /\ vx (V3 1 2 3) <> vy (V3 1 2 3).
Proof. split; [intros X; injection X; lra|cbn; lra]. Qed.

(** * C83 *)
Lemma transform_cases : forall v1 v2,
  (cross v1 v2 = vzero -> transform v1 v2 = None) /\
  (cross v1 v2 <> vzero -> exists t x, 0 < t /\ unit3 x /\ vangle v1 v2 = Some t /\ transform v1 v2 =
    Some (M3 (V3 1 (exp (- vz x * t)) (exp (vy x * t))) (V3 (exp (vz x * t)) 1 (exp (- vx x * t))) (V3 (exp (- vy x * t)) (exp (vx x * t)) 1))).
Proof.
  intros v1 v2. split; intros H.
  - unfold transform. destruct (vangle v1 v2); auto. rewrite H.
    destruct (Req_EM_T (norm vzero) 0) as [_|n]; auto. exfalso. apply n. now apply norm_zero_iff.
  - assert (P : 0 < norm (cross v1 v2)).
    { pose proof (norm_nonneg (cross v1 v2)). destruct (Req_dec (norm (cross v1 v2)) 0) as [h|h]; [|lra]. apply norm_zero_iff in h. contradiction. }
    assert (L : nrm2 (cross v1 v2) = nrm2 v1 * nrm2 v2 - dot v1 v2 * dot v1 v2).
    { destruct v1 as [a b c], v2 as [d e f]. unfold nrm2, dot, cross. cbn [vx vy vz]. ring. }
    assert (P2 : 0 < nrm2 (cross v1 v2)) by (rewrite <- norm_sqr; nra).
    assert (Q1 : norm v1 * norm v1 = nrm2 v1) by apply norm_sqr. assert (Q2 : norm v2 * norm v2 = nrm2 v2) by apply norm_sqr.
    pose proof (norm_nonneg v1) as N1. pose proof (norm_nonneg v2) as N2.
    assert (NP : 0 < norm v1 * norm v2).
    { destruct (Req_dec (norm v1 * norm v2) 0) as [h|h]; [|nra]. exfalso.
      assert ((norm v1 * norm v2) * (norm v1 * norm v2) = nrm2 v1 * nrm2 v2) by (rewrite <- Q1, <- Q2; ring). rewrite h in H0. pose proof (Rle_0_sqr (dot v1 v2)). unfold Rsqr in *. lra. }
    assert (B : -1 < dot v1 v2 / (norm v1 * norm v2) < 1).
    { assert (S : dot v1 v2 * dot v1 v2 < (norm v1 * norm v2) * (norm v1 * norm v2)).
      { replace ((norm v1 * norm v2) * (norm v1 * norm v2)) with (nrm2 v1 * nrm2 v2) by (rewrite <- Q1, <- Q2; ring). lra. }
      set (k := norm v1 * norm v2) in *. set (d := dot v1 v2) in *.
      split; apply Rmult_lt_reg_r with k; auto; unfold Rdiv; rewrite Rmult_assoc, Rinv_l by lra; nra. }
    unfold transform, vangle. destruct (Req_EM_T (norm v1 * norm v2) 0); [lra|].
    destruct (Req_EM_T (norm (cross v1 v2)) 0); [lra|].
    exists (acos (dot v1 v2 / (norm v1 * norm v2))), (vscale (/ norm (cross v1 v2)) (cross v1 v2)).
    split. { destruct (acos_bound (dot v1 v2 / (norm v1 * norm v2))) as [[?|Z] _]; auto.
      exfalso. pose proof (cos_acos' (dot v1 v2 / (norm v1 * norm v2)) ltac:(lra)) as C. rewrite <- Z, cos_0 in C. lra. }
    split. { unfold unit3. rewrite nrm2_scale, <- norm_sqr. field. lra. }
    split; [reflexivity|]. rewrite !Rmult_0_l, exp_0. reflexivity.
Qed.
Theorem C83_defined : forall v1 v2, transform v1 v2 = None <-> cross v1 v2 = vzero.
Proof.
  intros v1 v2. destruct (transform_cases v1 v2) as [P Q]. split; auto. intros H.
  destruct (Classical_Prop.classic (cross v1 v2 = vzero)) as [|N]; auto. destruct (Q N) as (t & x & _ & _ & _ & E). rewrite E in H. discriminate.
Qed.
(** every entry is positive and opposite entries are reciprocal, so no column is a unit vector *)
Theorem C83_not_rotation : forall v1 v2 T, transform v1 v2 = Some T ->
  (forall a b, In a [r0 T; r1 T; r2 T] -> In b [vx a; vy a; vz a] -> 0 < b) /\
  vx (r0 T) = 1 /\ vy (r1 T) = 1 /\ vz (r2 T) = 1 /\
  vy (r0 T) * vx (r1 T) = 1 /\ vz (r0 T) * vx (r2 T) = 1 /\ vz (r1 T) * vy (r2 T) = 1 /\
  (forall a, In a [r0 T; r1 T; r2 T] -> 1 < nrm2 a) /\ ~ orthonormal T.
Proof.
  intros v1 v2 T H. destruct (transform_cases v1 v2) as [P Q].
  destruct (Classical_Prop.classic (cross v1 v2 = vzero)) as [N|N]; [rewrite (P N) in H; discriminate|].
  destruct (Q N) as (t & x & T0 & U & _ & E). rewrite E in H. injection H as <-. cbn [r0 r1 r2 vx vy vz].
  assert (POS : forall a b, In a [V3 1 (exp (- vz x * t)) (exp (vy x * t)); V3 (exp (vz x * t)) 1 (exp (- vx x * t)); V3 (exp (- vy x * t)) (exp (vx x * t)) 1] ->
    In b [vx a; vy a; vz a] -> 0 < b).
  { intros a b [<-|[<-|[<-|[]]]] [<-|[<-|[<-|[]]]]; cbn [vx vy vz]; try lra; apply exp_pos. }
  assert (NR : forall a, In a [V3 1 (exp (- vz x * t)) (exp (vy x * t)); V3 (exp (vz x * t)) 1 (exp (- vx x * t)); V3 (exp (- vy x * t)) (exp (vx x * t)) 1] -> 1 < nrm2 a).
  { intros a A. pose proof (POS a (vx a) A ltac:(cbn; auto)). pose proof (POS a (vy a) A ltac:(cbn; auto)). pose proof (POS a (vz a) A ltac:(cbn; auto)).
    unfold nrm2, dot. destruct A as [<-|[<-|[<-|[]]]]; cbn [vx vy vz] in *; nra. }
  split; auto.
  do 3 (split; [reflexivity|]). do 3 (split; [rewrite <- exp_plus; replace (_ + _) with 0 by ring; apply exp_0|]).
  split; auto. intros O. specialize (NR _ (or_introl eq_refl)). unfold orthonormal, unit3 in O. cbn [r0 r1 r2] in O.
  destruct O as [O _]. unfold nrm2 in NR. lra.
Qed.
(** a vector with non-negative components goes to one with positive components only *)
Theorem C83_not_mapping : forall v1 v2 T, transform v1 v2 = Some T -> 0 <= vx v1 -> 0 <= vy v1 -> 0 <= vz v1 ->
  (vx v2 <= 0 \/ vy v2 <= 0 \/ vz v2 <= 0) -> forall k, 0 < k -> mv T v1 <> vscale k v2.
Proof.
  intros v1 v2 T H X Y Z N k K E. destruct (C83_not_rotation v1 v2 T H) as (POS & _).
  assert (NZ : v1 <> vzero).
  { intros ->. assert (C : cross vzero v2 = vzero) by (destruct v2; apply vec3_eq; cbn; ring).
    apply C83_defined in C. rewrite C in H. discriminate. }
  assert (SUM : 0 < vx v1 + vy v1 + vz v1).
  { destruct v1 as [a b c]. cbn in *. destruct (Req_EM_T (a + b + c) 0) as [h|h]; [|lra]. exfalso. apply NZ. apply vec3_eq; cbn; lra. }
  assert (G : forall a, In a [r0 T; r1 T; r2 T] -> 0 < dot a v1).
  { intros a A. pose proof (POS a (vx a) A ltac:(cbn; auto)). pose proof (POS a (vy a) A ltac:(cbn; auto)). pose proof (POS a (vz a) A ltac:(cbn; auto)).
    unfold dot. set (m := Rmin (vx a) (Rmin (vy a) (vz a))).
    assert (M : 0 < m) by (unfold m; repeat apply Rmin_pos; auto).
    assert (m <= vx a) by (apply Rmin_l). assert (m <= vy a) by (eapply Rle_trans; [apply Rmin_r|apply Rmin_l]).
    assert (m <= vz a) by (eapply Rle_trans; [apply Rmin_r|apply Rmin_r]).
    assert (0 < m * (vx v1 + vy v1 + vz v1)) by (apply Rmult_lt_0_compat; auto). nra. }
  pose proof (G (r0 T) ltac:(cbn; auto)) as G0. pose proof (G (r1 T) ltac:(cbn; auto)) as G1. pose proof (G (r2 T) ltac:(cbn; auto)) as G2.
  unfold mv, vscale in E. injection E as E0 E1 E2. rewrite E0 in G0. rewrite E1 in G1. rewrite E2 in G2.
  destruct N as [N|[N|N]]; nra.
Qed.
Example C83_ex : exists T, transform ex ey = Some T.
Proof.
  destruct (transform_cases ex ey) as [_ Q]. destruct Q as (t & x & _ & _ & _ & E); [|eauto].
  intros X. apply (f_equal vz) in X. cbn in X. lra.
Qed.

(** * C110 *)
Theorem C110_round_trip : forall a, vx a <> 0 -> vy a <> 0 -> vz a <> 0 ->
  (exists b, to_normal_errors a = Some b /\ from_normal_errors b = Some a) /\
  (exists b, from_normal_errors a = Some b /\ to_normal_errors b = Some a).
Proof.
  intros [x y z] X Y Z. cbn [vx vy vz] in *.
  assert (Q : z * z <> 0) by (apply Rmult_integral_contrapositive; auto).
  assert (D : forall u, u <> 0 -> z * z / u <> 0).
  { intros u U. unfold Rdiv. apply Rmult_integral_contrapositive. split; auto. now apply Rinv_neq_0_compat. }
  assert (D1 : forall u, u <> 0 -> z * z * (1 / u) <> 0).
  { intros u U. replace (z * z * (1 / u)) with (z * z / u) by (field; auto). auto. }
  unfold to_normal_errors, from_normal_errors, fdiv. cbn [vx vy vz].
  destruct (Req_EM_T x 0); [contradiction|]. destruct (Req_EM_T y 0); [contradiction|]. destruct (Req_EM_T z 0); [contradiction|].
  split; eexists; (split; [reflexivity|]); unfold vscale; cbn [vx vy vz].
  - pose proof (D1 x X). pose proof (D1 y Y). pose proof (D1 z Z).
    destruct (Req_EM_T (z * z * (1 / x)) 0); [contradiction|]. destruct (Req_EM_T (z * z * (1 / y)) 0); [contradiction|]. destruct (Req_EM_T (z * z * (1 / z)) 0); [contradiction|].
    f_equal. apply vec3_eq; cbn [vx vy vz]; field; auto.
  - pose proof (D x X). pose proof (D y Y). pose proof (D z Z).
    destruct (Req_EM_T (z * z / x) 0); [contradiction|]. destruct (Req_EM_T (z * z / y) 0); [contradiction|]. destruct (Req_EM_T (z * z / z) 0); [contradiction|].
    f_equal. apply vec3_eq; cbn [vx vy vz]; field; auto.
Qed.
(** the bounds returned by [error_bounds] are the lower first, centred on the nominal value *)
Theorem C110_bounds : forall nominal width lo hi, error_bounds (nominal, width) = (lo, hi) ->
  (lo + hi) / 2 = nominal /\ hi - lo = 2 * width /\ (0 <= width -> lo <= nominal <= hi).
Proof. intros n w lo hi H. unfold error_bounds in H. injection H as <- <-. repeat split; lra. Qed.
(** plane and normal axes multiply to the square of the third axis; the order reverses *)
Theorem C110_reciprocal : forall a b, to_normal_errors a = Some b ->
  vz b = vz a /\ vx a * vx b = vz a * vz a /\ vy a * vy b = vz a * vz a /\
  (0 < vz a -> vz a <= vy a <= vx a -> vx b <= vy b <= vz b).
Proof.
  intros [x y z] b H. unfold to_normal_errors, fdiv in H. cbn [vx vy vz] in H.
  destruct (Req_EM_T x 0); [discriminate|]. destruct (Req_EM_T y 0); [discriminate|]. destruct (Req_EM_T z 0); [discriminate|].
  injection H as <-. unfold vscale. cbn [vx vy vz]. split; [field; auto|]. split; [field; auto|]. split; [field; auto|].
  intros Z [L1 L2]. split; (apply Rmult_le_compat_l; [nra|]); unfold Rdiv; rewrite !Rmult_1_l; apply Rinv_le_contravar; lra.
Qed.
Example C110_ex : to_normal_errors (V3 4 2 1) = Some (V3 (1 / 4) (1 / 2) 1).
Proof.
  unfold to_normal_errors, fdiv. cbn [vx vy vz]. repeat (destruct (Req_EM_T _ 0); [lra|]). f_equal. apply vec3_eq; cbn; field.
Qed.

(** * C111 *)
(** quadratic form and symmetric positive definite matrices of the plane *)
Definition quad2 (C : matn) (x y : R) : R := x * (C 0%nat 0%nat * x + C 0%nat 1%nat * y) + y * (C 1%nat 0%nat * x + C 1%nat 1%nat * y).
Definition spd2 (C : matn) : Prop := C 0%nat 1%nat = C 1%nat 0%nat /\ forall x y, (x <> 0 \/ y <> 0) -> 0 < quad2 C x y.
(** (x, y) lies on the contour of squared Mahalanobis distance [l * l]: it is C w with w . (x, y) = l * l *)
Definition contour (C : matn) (l x y : R) : Prop :=
  exists w0 w1, C 0%nat 0%nat * w0 + C 0%nat 1%nat * w1 = x /\ C 1%nat 0%nat * w0 + C 1%nat 1%nat * w1 = y /\ w0 * x + w1 * y = l * l.

Lemma spd_eigen : forall C U s V k, spd2 C -> is_svdn 2 C U s V -> (k < 2)%nat -> 0 < s k /\
  C 0%nat 0%nat * V k 0%nat + C 0%nat 1%nat * V k 1%nat = s k * V k 0%nat /\
  C 1%nat 0%nat * V k 0%nat + C 1%nat 1%nat * V k 1%nat = s k * V k 1%nat.
Proof.
  intros C U s V k [SY PD] H K.
  pose proof (svd_av 2 C U s V k 0%nat H K ltac:(lia)) as A0. pose proof (svd_av 2 C U s V k 1%nat H K ltac:(lia)) as A1.
  pose proof (svd_atu 2 C U s V k 0%nat H K ltac:(lia)) as B0. pose proof (svd_atu 2 C U s V k 1%nat H K ltac:(lia)) as B1.
  pose proof (svd_row_unit 2 C U s V k H K) as R. rewrite sumn2 in *.
  destruct H as (_ & _ & P & _). specialize (P k K). rewrite <- SY in B0. rewrite SY in B1.
  set (v0 := V k 0%nat) in *. set (v1 := V k 1%nat) in *. set (u0 := U 0%nat k) in *. set (u1 := U 1%nat k) in *. set (sk := s k) in *.
  assert (NV : v0 <> 0 \/ v1 <> 0). { destruct (Req_EM_T v0 0) as [e|]; auto. right. intros e'. rewrite e, e' in R. lra. }
  assert (S0 : sk <> 0).
  { intros Z. pose proof (PD v0 v1 NV) as Q. unfold quad2 in Q. rewrite A0, A1, Z in Q. lra. }
  assert (F : (u0 - v0) * (sk * v0 - u0 * sk) + (u1 - v1) * (sk * v1 - u1 * sk) <= 0).
  { pose proof (Rmult_le_pos sk _ P (Rle_0_sqr (u0 - v0))) as F0. pose proof (Rmult_le_pos sk _ P (Rle_0_sqr (u1 - v1))) as F1. unfold Rsqr in *. lra. }
  assert (W : u0 - v0 = 0 /\ u1 - v1 = 0).
  { destruct (Req_EM_T (u0 - v0) 0) as [e|n]; [destruct (Req_EM_T (u1 - v1) 0) as [e'|n]; auto|]; exfalso.
    - pose proof (PD (u0 - v0) (u1 - v1) (or_intror n)) as Q. unfold quad2 in Q.
      replace (C 0%nat 0%nat * (u0 - v0) + C 0%nat 1%nat * (u1 - v1)) with (sk * v0 - u0 * sk) in Q by lra.
      replace (C 1%nat 0%nat * (u0 - v0) + C 1%nat 1%nat * (u1 - v1)) with (sk * v1 - u1 * sk) in Q by lra. lra.
    - pose proof (PD (u0 - v0) (u1 - v1) (or_introl n)) as Q. unfold quad2 in Q.
      replace (C 0%nat 0%nat * (u0 - v0) + C 0%nat 1%nat * (u1 - v1)) with (sk * v0 - u0 * sk) in Q by lra.
      replace (C 1%nat 0%nat * (u0 - v0) + C 1%nat 1%nat * (u1 - v1)) with (sk * v1 - u1 * sk) in Q by lra. lra. }
  split; [lra|]. destruct W as [W0 W1]. rewrite A0, A1. replace u0 with v0 by lra. replace u1 with v1 by lra. lra.
Qed.
Lemma svd_rows_ortho : forall C U s V, is_svdn 2 C U s V ->
  V 0%nat 0%nat * V 1%nat 0%nat + V 0%nat 1%nat * V 1%nat 1%nat = 0.
Proof.
  intros C U s V (_ & (OV & _) & _). specialize (OV 0%nat 1%nat ltac:(lia) ltac:(lia)). unfold mulm, trn, idn in OV. rewrite sumn2 in OV. exact OV.
Qed.
Theorem C111_contour : forall svd c cov level n, spd2 cov -> (let '(U, s, V) := svd 2%nat cov in is_svdn 2 cov U s V) ->
  length (cov_ellipse svd c cov level n) = n /\
  forall p, In p (cov_ellipse svd c cov level n) -> contour cov level (fst p - fst c) (snd p - snd c).
Proof.
  intros svd c cov level n PD HS. unfold cov_ellipse. destruct (svd 2%nat cov) as [[U s] V].
  destruct (spd_eigen cov U s V 0 PD HS ltac:(lia)) as (S0 & E00 & E01).
  destruct (spd_eigen cov U s V 1 PD HS ltac:(lia)) as (S1 & E10 & E11).
  pose proof (svd_row_unit 2 cov U s V 0 HS ltac:(lia)) as R0. pose proof (svd_row_unit 2 cov U s V 1 HS ltac:(lia)) as R1. rewrite sumn2 in R0, R1.
  pose proof (svd_rows_ortho cov U s V HS) as O.
  split. { rewrite map_length. unfold linspace2pi. now rewrite map_length, seq_length. }
  intros p Hp. apply in_map_iff in Hp. destruct Hp as (u & <- & _). cbn [fst snd].
  pose proof (sqrt_lt_R0 _ S0) as Q0. pose proof (sqrt_lt_R0 _ S1) as Q1.
  pose proof (sqrt_sqrt (s 0%nat) ltac:(lra)) as T0. pose proof (sqrt_sqrt (s 1%nat) ltac:(lra)) as T1.
  set (a := sqrt (s 0%nat)) in *. set (b := sqrt (s 1%nat)) in *.
  set (p0 := V 0%nat 0%nat) in *. set (p1 := V 0%nat 1%nat) in *. set (q0 := V 1%nat 0%nat) in *. set (q1 := V 1%nat 1%nat) in *.
  pose proof (sincos1 u) as SC. set (co := cos u) in *. set (si := sin u) in *.
  exists (level * co / a * p0 + level * si / b * q0), (level * co / a * p1 + level * si / b * q1).
  assert (X : forall m0 m1, m0 * (level * co / a * p0 + level * si / b * q0) + m1 * (level * co / a * p1 + level * si / b * q1) =
     level * co / a * (m0 * p0 + m1 * p1) + level * si / b * (m0 * q0 + m1 * q1)) by (intros; ring).
  rewrite !X, E00, E01, E10, E11, <- T0, <- T1. split; [field; lra|]. split; [field; lra|].
  transitivity (level * level * (co * co * (p0 * p0 + p1 * p1) + si * si * (q0 * q0 + q1 * q1)) +
     level * level * co * si * (a / b + b / a) * (p0 * q0 + p1 * q1)); [field; lra|].
  rewrite R0, R1, O. transitivity (level * level * (si * si + co * co)); [ring|]. rewrite SC. ring.
Qed.
Lemma linspace_nth : forall n i, (i < n)%nat -> (1 < n)%nat -> nth i (linspace2pi n) 0 = INR i * (2 * PI / INR (n - 1)).
Proof.
  intros n i I N. unfold linspace2pi. destruct (Nat.eqb_spec n 1); [lia|].
  set (g := fun i0 : nat => INR i0 * (2 * PI / INR (n - 1))).
  rewrite (nth_indep _ 0 (g 0%nat)) by (rewrite map_length, seq_length; auto).
  rewrite map_nth. unfold g. now rewrite seq_nth by auto.
Qed.
(** a full turn: points half a turn apart are opposite, and the curve closes *)
Theorem C111_full_turn : forall svd c cov level k d i, (0 < k)%nat -> (i <= k)%nat ->
  let e := cov_ellipse svd c cov level (2 * k + 1) in let p := nth i e d in let q := nth (i + k) e d in
  fst p + fst q = 2 * fst c /\ snd p + snd q = 2 * snd c.
Proof.
  intros svd c cov level k d i K I e p q. subst p q e. unfold cov_ellipse. destruct (svd 2%nat cov) as [[U s] V].
  match goal with |- context [map ?g (linspace2pi _)] => set (f := g) end.
  assert (L : length (linspace2pi (2 * k + 1)) = (2 * k + 1)%nat) by (unfold linspace2pi; now rewrite map_length, seq_length).
  rewrite (nth_indep (map f (linspace2pi (2 * k + 1))) d (f 0) (n := i%nat)) by (rewrite map_length, L; lia).
  rewrite (nth_indep (map f (linspace2pi (2 * k + 1))) d (f 0) (n := (i + k)%nat)) by (rewrite map_length, L; lia).
  rewrite !map_nth. rewrite !linspace_nth by lia.
  replace (2 * k + 1 - 1)%nat with (2 * k)%nat by lia.
  assert (KP : 0 < INR k) by (apply lt_0_INR; lia).
  assert (A : INR (i + k) * (2 * PI / INR (2 * k)) = INR i * (2 * PI / INR (2 * k)) + PI).
  { rewrite plus_INR, mult_INR. cbn [INR]. field. lra. }
  rewrite A. generalize (INR i * (2 * PI / INR (2 * k))). intros t. unfold f. rewrite neg_cos, neg_sin. cbn [fst snd]. split; ring.
Qed.
Example C111_ex : spd2 (fun i j => if (i =? j)%nat then 2 else 1).
Proof. split; [reflexivity|]. intros x y N. unfold quad2. cbn. pose proof (hyp_pos x y N). pose proof (Rle_0_sqr (x + y)). unfold Rsqr in *. lra. Qed.
Theorem C111_rotate : forall a b, let r := rotate_2D a in let s := rotate_2D b in
  let '((r00, r01), (r10, r11)) := r in let '((s00, s01), (s10, s11)) := s in
  rotate_2D (a + b) = ((r00 * s00 + r01 * s10, r00 * s01 + r01 * s11), (r10 * s00 + r11 * s10, r10 * s01 + r11 * s11)) /\
  r00 * r11 - r01 * r10 = 1 /\ r00 * r01 + r10 * r11 = 0.
Proof.
  intros a b. cbn. unfold rotate_2D. rewrite cos_plus, sin_plus. pose proof (sincos1 a). split; [|split; lra].
  f_equal; f_equal; ring.
Qed.

Print Assumptions C81_round_trip.
Print Assumptions C81_axes.
Print Assumptions C81_cartesian.
Print Assumptions C109_handedness.
Print Assumptions C109_matrix_differs.
Print Assumptions C82_swap.
Print Assumptions C82_layout.
Print Assumptions C82_three_points_refuted.
Print Assumptions C83_defined.
Print Assumptions C83_not_rotation.
Print Assumptions C83_not_mapping.
Print Assumptions C110_round_trip.
Print Assumptions C110_bounds.
Print Assumptions C110_reciprocal.
Print Assumptions C111_contour.
Print Assumptions C111_full_turn.
Print Assumptions C111_rotate.
