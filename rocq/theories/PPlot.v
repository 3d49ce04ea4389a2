(** Properties C162-C166: the error ellipse of a regression fit and the plot functions. *)
From Coq Require Import Reals Lra Lia List Arith Bool Psatz String.
From Verif Require Import RVec Trig SpecPlane LNum SpecConics MPca MAxes MSphere MRecon MStereo MConics LConics LPca LFit LFit2 LAngles LExamples
  LRecon LSlice PStereo MShape PShape MLinear LLinear SpecLinear PLinear MCoord PCoord MPlot.
Import ListNotations.
Notation length := List.length.
Open Scope R_scope.

(** * C162: where the vertices are drawn *)
(** the direction drawn for a line with a plunge and a trend (radians): the opposite of the line *)
Lemma line_spec : forall p t, exists q, line_point (degrees p) (degrees t) = Some q /\
  MRecon.vec_of q = vneg (V3 (cos p * sin t) (cos p * cos t) (- sin p)).
Proof.
  intros p t. unfold line_point. destruct (rotate_sph_spec 0 (90 - degrees p) (degrees t)) as (q & E & H). exists q. split; auto.
  unfold MRecon.vec_of. rewrite H. unfold sph2cart, rotate_x. rewrite radians_0, cos_0, sin_0, sin_90_minus, cos_90_minus, !radians_degrees.
  apply vec3_eq; vunf; ring.
Qed.
(** the gradient, in map coordinates, of a point of the rotated frame of the coefficients *)
Definition unrotate (az : R) (e : R * R) : R * R :=
  (cos az * fst e + sin az * snd e, - sin az * fst e + cos az * snd e).
Definition pole_of_gradient (g : R * R) : vec3 := graph_normal (fst g) (snd g).

Lemma vertex_vec : forall f x y, let '(t, p) := l_vertex f true true (x, y) in
  let th := l_azimuth f + atan2 (- y) (- x) in let h := sqrt (1 + x * x) in 0 < h /\
  exists q, line_point (degrees p) (degrees t) = Some q /\ MRecon.vec_of q = V3 (- x / h * cos th) (- (- x / h * sin th)) (1 / h).
Proof.
  intros f x y. unfold l_vertex. cbn [fst snd]. set (th := l_azimuth f + atan2 (- y) (- x)). cbv zeta.
  assert (HP : 0 < sqrt (1 + x * x)) by (apply sqrt_lt_R0; nra). split; auto.
  destruct (line_spec (PI / 2 - atan (- x)) (PI + (th + PI / 2))) as (q & E & V). exists q. split; auto. rewrite V.
  rewrite cos_shift, sin_shift, sin_atan, cos_atan.
  replace (1 + (- x)²) with (1 + x * x) by (unfold Rsqr; ring).
  replace (PI + (th + PI / 2)) with ((PI / 2 + th) + PI) by ring. rewrite neg_sin, neg_cos.
  rewrite <- cos_sin. replace (cos (PI / 2 + th)) with (- sin th) by (rewrite cos_plus, cos_PI2, sin_PI2; ring).
  apply vec3_eq; vunf; field; lra.
Qed.
Lemma unrotate_norm : forall az e, let g := unrotate az e in fst g * fst g + snd g * snd g = fst e * fst e + snd e * snd e.
Proof.
  intros az [x y]. unfold unrotate. cbn [fst snd]. pose proof (sincos1 az). transitivity ((sin az * sin az + cos az * cos az) * (x * x + y * y)); [ring|]. rewrite H. ring.
Qed.
(** A vertex of the ellipse is drawn at the pole of the plane it stands for exactly when it
    lies on the steepest-descent axis, on the side of the fit. *)
Theorem C162_vertex : forall f x y, let '(t, p) := l_vertex f true true (x, y) in
  exists q, line_point (degrees p) (degrees t) = Some q /\
  (MRecon.vec_of q = pole_of_gradient (unrotate (l_azimuth f) (x, y)) <-> y = 0 /\ x <= 0).
Proof.
  intros f x y. pose proof (vertex_vec f x y) as V. destruct (l_vertex f true true (x, y)) as [t p]. cbv zeta in V.
  destruct V as (HP & q & E & V). exists q. split; auto. rewrite V. unfold pole_of_gradient, graph_normal.
  pose proof (unrotate_norm (l_azimuth f) (x, y)) as N. cbv zeta in N. cbn [fst snd] in N. rewrite N. unfold unrotate. cbn [fst snd].
  set (az := l_azimuth f) in *. set (h := sqrt (1 + x * x)) in *.
  assert (HH : h * h = 1 + x * x) by (apply sqrt_sqrt; nra).
  assert (KP : 0 < sqrt (1 + (x * x + y * y))) by (apply sqrt_lt_R0; nra).
  assert (KK : sqrt (1 + (x * x + y * y)) * sqrt (1 + (x * x + y * y)) = 1 + (x * x + y * y)) by (apply sqrt_sqrt; nra).
  set (k := sqrt (1 + (x * x + y * y))) in *. split.
  - intros Q. assert (QX := f_equal vx Q). assert (QY := f_equal vy Q). assert (QZ := f_equal vz Q). unfold vscale in QX, QY, QZ. cbn [vx vy vz] in QX, QY, QZ. clear Q.
    assert (KH : k = h). { transitivity (k * (1 / h) * h); [field; lra|]. rewrite QZ. field. lra. }
    rewrite KH in *. assert (Y : y = 0) by nra. split; auto. subst y. destruct (Rle_dec x 0) as [|NX]; auto. exfalso.
    rewrite Ropp_0 in *. assert (A : atan2 0 (- x) = PI). { replace 0 with (x * sin PI) by (rewrite sin_PI; ring). replace (- x) with (x * cos PI) by (rewrite cos_PI; ring).
      pose proof PI_pos. apply atan2_of_polar; lra. }
    rewrite A, neg_cos in QX. rewrite A, neg_sin in QY.
    assert (C : x / h * cos az = 0). { replace (/ h * - (cos az * x + sin az * 0)) with (- (x / h * cos az)) in QX by (field; lra). lra. }
    assert (S : x / h * sin az = 0). { replace (/ h * - (- sin az * x + cos az * 0)) with (x / h * sin az) in QY by (field; lra).
      replace (- (- x / h * - sin az)) with (- (x / h * sin az)) in QY by (field; lra). lra. }
    assert (XH : 0 < x / h) by (apply Rdiv_lt_0_compat; lra). pose proof (sincos1 az). assert (cos az = 0) by nra. assert (sin az = 0) by nra. nra.
  - intros [Y X]. subst y. assert (A : atan2 (- 0) (- x) = 0).
    { rewrite Ropp_0. destruct (Req_EM_T x 0) as [->|NX]; [rewrite Ropp_0; apply atan2_00|].
      replace 0 with (- x * sin 0) at 1 by (rewrite sin_0; ring). replace (- x) with (- x * cos 0) at 2 by (rewrite cos_0; ring).
      pose proof PI_pos. apply atan2_of_polar; lra. }
    rewrite A, Rplus_0_r. assert (KH : k = h) by (unfold k, h; f_equal; ring). rewrite KH. apply vec3_eq; vunf; field; lra.
Qed.
(** The centre, all there is at level 0, is drawn at the pole of the fitted plane. *)
Theorem C162_centre : forall svd inv r A m, numpy_inv inv -> (0 < r)%nat -> rbind (Regression r 3 A) (coefs inv) = Ok m ->
  exists f, LinearOrientation inv r 3 A = Ok f /\ let '(s, d) := l_strike_dip f in
  length (l_error_ellipse svd true true 0 f) = 1000%nat /\
  forall t p, In (t, p) (l_error_ellipse svd true true 0 f) ->
  exists q, line_point (degrees p) (degrees t) = Some q /\ MRecon.vec_of q = plane_normal s d.
Proof.
  intros svd inv r A m HI R0 H. destruct (C79_angles inv r A m HI R0 H) as (f & F & K). exists f. split; auto.
  destruct (l_strike_dip f) as [s d]. destruct K as (_ & _ & _ & K).
  destruct (linear_fields inv r A f HI R0 F) as (m' & V & E & _ & _ & AZ & CO). rewrite H in E. injection E as <-.
  destruct (rotated_slope (m 0%nat) (m 1%nat) (m 2%nat)) as [RS RP]. rewrite <- AZ, <- CO in RS. cbv zeta in RP. rewrite <- AZ in RP.
  split. { unfold l_error_ellipse, l_ellipse, cov_ellipse. rewrite map_length. destruct (svd 2%nat _) as [[? ?] ?]. rewrite map_length. apply linspace_length. }
  intros t p I. unfold l_error_ellipse, l_ellipse, cov_ellipse in I. apply in_map_iff in I. destruct I as ([x y] & W & I).
  destruct (svd 2%nat _) as [[? ?] ?]. apply in_map_iff in I. destruct I as (u & I & _). cbn [fst snd] in I. rewrite RS in I. cbn [vx vy] in I.
  set (rho := sqrt (m 0%nat * m 0%nat + m 1%nat * m 1%nat)) in *. assert (RN : 0 <= rho) by apply sqrt_pos.
  assert (X : x = - rho /\ y = 0) by (injection I as <- <-; split; ring). destruct X as [-> ->].
  pose proof (C162_vertex f (- rho) 0) as C. rewrite W in C. destruct C as (q & L & C). exists q. split; auto. rewrite K.
  destruct C as [_ C]. rewrite C by (split; lra). unfold pole_of_gradient, unrotate. cbn [fst snd].
  destruct (Req_EM_T (m 0%nat * m 0%nat + m 1%nat * m 1%nat) 0) as [Z|NZ].
  - assert (m 0%nat = 0) by nra. assert (m 1%nat = 0) by nra. assert (R' : rho = 0) by (unfold rho; rewrite Z; apply sqrt_0). rewrite R', H0, H1. f_equal; ring.
  - destruct RP as [P1 P2]. { destruct (Req_EM_T (m 0%nat) 0) as [e|]; [right; intros e'; apply NZ; rewrite e, e'; ring|auto]. } f_equal; lra.
Qed.

(** every fit has vertices drawn elsewhere *)
Lemma in_linspace : forall n i, (i < n)%nat -> (1 < n)%nat -> In (INR i * (2 * PI / INR (n - 1))) (linspace2pi n).
Proof.
  intros n i I N. rewrite <- (PCoord.linspace_nth n i I N). apply nth_In. now rewrite linspace_length.
Qed.
Lemma linear_coef : forall inv r A f, numpy_inv inv -> (0 < r)%nat -> LinearOrientation inv r 3 A = Ok f ->
  exists m, rbind (Regression r 3 A) (coefs inv) = Ok m /\
  vx (l_coef f) = - sqrt (m 0%nat * m 0%nat + m 1%nat * m 1%nat) /\ vy (l_coef f) = 0 /\
  unrotate (l_azimuth f) (vx (l_coef f), vy (l_coef f)) = (m 0%nat, m 1%nat).
Proof.
  intros inv r A f HI R0 F. destruct (linear_fields inv r A f HI R0 F) as (m & V & E & _ & _ & AZ & CO). exists m. split; auto.
  destruct (rotated_slope (m 0%nat) (m 1%nat) (m 2%nat)) as [RS RP]. rewrite <- AZ, <- CO in RS. cbv zeta in RP. rewrite <- AZ in RP.
  rewrite RS. cbn [vx vy]. do 2 (split; auto). unfold unrotate. cbn [fst snd].
  destruct (Req_EM_T (m 0%nat * m 0%nat + m 1%nat * m 1%nat) 0) as [Z|NZ].
  - assert (Z0 : m 0%nat = 0) by nra. assert (Z1 : m 1%nat = 0) by nra. rewrite Z, sqrt_0, Z0, Z1. f_equal; ring.
  - destruct RP as [P1 P2]. { destruct (Req_EM_T (m 0%nat) 0) as [e|]; [right; intros e'; apply NZ; rewrite e, e'; ring|auto]. } f_equal; lra.
Qed.
Theorem C162_misplaced : forall svd inv r A f level, numpy_inv inv -> (0 < r)%nat -> LinearOrientation inv r 3 A = Ok f ->
  spd2 (cov2 (l_cov f)) -> (let '(U, s, V) := svd 2%nat (cov2 (l_cov f)) in is_svdn 2 (cov2 (l_cov f)) U s V) -> level <> 0 ->
  exists e t p q, In e (l_ellipse svd level f) /\ In (t, p) (l_error_ellipse svd true true level f) /\ l_vertex f true true e = (t, p) /\
  line_point (degrees p) (degrees t) = Some q /\ MRecon.vec_of q <> pole_of_gradient (unrotate (l_azimuth f) e).
Proof.
  intros svd inv r A f level HI R0 F PD HS LV. destruct (linear_coef inv r A f HI R0 F) as (m & _ & _ & CY & _).
  assert (X : exists e, In e (l_ellipse svd level f) /\ snd e <> 0).
  { unfold l_ellipse, cov_ellipse. destruct (svd 2%nat _) as [[U s] V]. rewrite CY. cbn [fst snd].
    destruct (spd_eigen _ U s V 0 PD HS ltac:(lia)) as (S0 & _). destruct (spd_eigen _ U s V 1 PD HS ltac:(lia)) as (S1 & _).
    pose proof (svd_row_unit 2 _ U s V 0 HS ltac:(lia)) as R1. pose proof (svd_row_unit 2 _ U s V 1 HS ltac:(lia)) as R2. rewrite sumn2 in R1, R2.
    pose proof (svd_rows_ortho _ U s V HS) as O. apply sqrt_lt_R0 in S0. apply sqrt_lt_R0 in S1.
    set (n := 1000%nat). assert (N : (1 < n)%nat) by (unfold n; lia).
    destruct (Req_EM_T (V 0%nat 1%nat) 0) as [Z|NZ].
    - eexists. split; [apply in_map_iff; eexists; split; [reflexivity|apply (in_linspace n 1 N N)]|]. cbn [snd]. rewrite Z.
      set (u := INR 1 * (2 * PI / INR (n - 1))).
      assert (SU : 0 < sin u). { assert (NP : 2 < INR (n - 1)) by (rewrite <- INR_2 || replace 2 with (INR 2) by (simpl; ring); apply lt_INR; unfold n; lia). pose proof PI_pos.
        apply sin_gt_0; unfold u; cbn [INR]; rewrite Rmult_1_l.
        - apply Rdiv_lt_0_compat; lra.
        - apply Rmult_lt_reg_r with (INR (n - 1)); [lra|]. replace (2 * PI / INR (n - 1) * INR (n - 1)) with (2 * PI) by (field; lra). nra. }
      assert (V1 : V 1%nat 1%nat <> 0). { intros Z1. rewrite Z, Z1 in *. assert (V 0%nat 0%nat <> 0) by nra. nra. }
      replace (sqrt (s 0%nat) * level * cos u * 0 + sqrt (s 1%nat) * level * sin u * V 1%nat 1%nat + 0) with (sqrt (s 1%nat) * level * sin u * V 1%nat 1%nat) by ring.
      repeat apply Rmult_integral_contrapositive_currified; lra.
    - eexists. split; [apply in_map_iff; eexists; split; [reflexivity|apply (in_linspace n 0); lia]|]. cbn [snd INR]. rewrite Rmult_0_l, cos_0, sin_0.
      replace (sqrt (s 0%nat) * level * 1 * V 0%nat 1%nat + sqrt (s 1%nat) * level * 0 * V 1%nat 1%nat + 0) with (sqrt (s 0%nat) * level * V 0%nat 1%nat) by ring.
      repeat apply Rmult_integral_contrapositive_currified; lra. }
  destruct X as ([x y] & I & NY). cbn [snd] in NY. pose proof (C162_vertex f x y) as C. destruct (l_vertex f true true (x, y)) as [t p] eqn:W.
  destruct C as (q & L & C). exists (x, y), t, p, q. split; [exact I|]. split; [|split; [exact W|split; [exact L|]]].
  - unfold l_error_ellipse. apply in_map_iff. exists (x, y). auto.
  - intros Q. apply C in Q. lra.
Qed.

(** * C163: which planes the ellipse stands for *)
(** The gradients of the vertices lie on the contour of the covariance about the fitted
    gradient exactly when the fit dips due east or west or the covariance is isotropic. *)
Theorem C163_contour : forall svd inv r A f m level, numpy_inv inv -> (0 < r)%nat -> LinearOrientation inv r 3 A = Ok f ->
  rbind (Regression r 3 A) (coefs inv) = Ok m ->
  spd2 (cov2 (l_cov f)) -> (let '(U, s, V) := svd 2%nat (cov2 (l_cov f)) in is_svdn 2 (cov2 (l_cov f)) U s V) -> level <> 0 ->
  ((forall e, In e (l_ellipse svd level f) -> let g := unrotate (l_azimuth f) e in
     contour (cov2 (l_cov f)) level (fst g - m 0%nat) (snd g - m 1%nat)) <->
   sin (l_azimuth f) = 0 \/ (vx (r0 (l_cov f)) = vy (r1 (l_cov f)) /\ vy (r0 (l_cov f)) = 0)).
Proof.
  intros svd inv r A f m level HI R0 F M PD HS LV. destruct (linear_coef inv r A f HI R0 F) as (m' & M' & CX & CY & UN).
  rewrite M in M'. injection M' as <-. set (az := l_azimuth f) in *. set (C := cov2 (l_cov f)) in *.
  assert (SH : forall x y c, let g := unrotate az (x + fst c, y + snd c) in let k := unrotate az c in
     fst g - fst k = cos az * x + sin az * y /\ snd g - snd k = - sin az * x + cos az * y) by (intros x y [c0 c1]; unfold unrotate; cbn [fst snd]; split; ring).
  pose proof (sincos1 az) as SC.
  destruct (svd 2%nat C) as [[U s] V] eqn:SV.
  destruct (spd_eigen _ U s V 0 PD HS ltac:(lia)) as (S0 & E00 & E01). destruct (spd_eigen _ U s V 1 PD HS ltac:(lia)) as (S1 & E10 & E11).
  pose proof (svd_row_unit 2 _ U s V 0 HS ltac:(lia)) as R1. pose proof (svd_row_unit 2 _ U s V 1 HS ltac:(lia)) as R2. rewrite sumn2 in R1, R2.
  pose proof (svd_rows_ortho _ U s V HS) as O.
  assert (Q0 := S0). assert (Q1 := S1). apply sqrt_lt_R0 in Q0. apply sqrt_lt_R0 in Q1.
  assert (T0 := sqrt_sqrt (s 0%nat) ltac:(lra)). assert (T1 := sqrt_sqrt (s 1%nat) ltac:(lra)).
  split.
  - intros H. set (n := 1000%nat).
    assert (I : In (sqrt (s 0%nat) * level * V 0%nat 0%nat + vx (l_coef f), sqrt (s 0%nat) * level * V 0%nat 1%nat + vy (l_coef f)) (l_ellipse svd level f)).
    { unfold l_ellipse, cov_ellipse. fold C. rewrite SV. apply in_map_iff. exists (INR 0 * (2 * PI / INR (n - 1))). split; [|apply in_linspace; unfold n; lia].
      cbn [fst snd INR]. rewrite Rmult_0_l, cos_0, sin_0. f_equal; ring. }
    specialize (H _ I). cbv zeta in H.
    destruct (SH (sqrt (s 0%nat) * level * V 0%nat 0%nat) (sqrt (s 0%nat) * level * V 0%nat 1%nat) (vx (l_coef f), vy (l_coef f))) as [G0 G1].
    cbn [fst snd] in G0, G1. rewrite UN in G0, G1. cbn [fst snd] in G0, G1. rewrite G0, G1 in H. clear G0 G1 I SH.
    set (a := sqrt (s 0%nat)) in *. set (c := cos az) in *. set (z := sin az) in *.
    set (p0 := V 0%nat 0%nat) in *. set (p1 := V 0%nat 1%nat) in *. set (q0 := V 1%nat 0%nat) in *. set (q1 := V 1%nat 1%nat) in *.
    destruct H as (w0 & w1 & H0 & H1 & H2). destruct PD as [SY _].
    (* coordinates of w on the eigenvectors *)
    set (X := c * (a * level * p0) + z * (a * level * p1)) in *. set (Y := - z * (a * level * p0) + c * (a * level * p1)) in *.
    assert (W0 : s 0%nat * (w0 * p0 + w1 * p1) = X * p0 + Y * p1).
    { rewrite <- H0, <- H1. rewrite <- SY. transitivity (w0 * (s 0%nat * p0) + w1 * (s 0%nat * p1)); [ring|]. rewrite <- E00, <- E01, <- SY. ring. }
    assert (W1 : s 1%nat * (w0 * q0 + w1 * q1) = X * q0 + Y * q1).
    { rewrite <- H0, <- H1. rewrite <- SY. transitivity (w0 * (s 1%nat * q0) + w1 * (s 1%nat * q1)); [ring|]. rewrite <- E10, <- E11, <- SY. ring. }
    destruct HS as (_ & (OV & OV') & _).
    pose proof (OV' 0%nat 0%nat ltac:(lia) ltac:(lia)) as K0. pose proof (OV' 0%nat 1%nat ltac:(lia) ltac:(lia)) as K1. pose proof (OV' 1%nat 1%nat ltac:(lia) ltac:(lia)) as K2.
    unfold mulm, trn, idn in K0, K1, K2. rewrite sumn2 in K0, K1, K2. cbn [Nat.eqb] in K0, K1, K2. fold p0 p1 q0 q1 in K0, K1, K2.
    assert (XP : X * p0 + Y * p1 = a * level * c). { unfold X, Y. transitivity (a * level * c * (p0 * p0 + p1 * p1)); [ring|rewrite R1; ring]. }
    assert (XQ : (X * q0 + Y * q1) * (X * q0 + Y * q1) = a * a * (level * level) * (z * z)).
    { assert (T : X * q0 + Y * q1 = a * level * (c * (p0 * q0 + p1 * q1)) - a * level * z * (p0 * q1 - p1 * q0)) by (unfold X, Y; ring).
      assert (D : (p0 * q1 - p1 * q0) * (p0 * q1 - p1 * q0) = 1).
      { transitivity ((p0 * p0 + p1 * p1) * (q0 * q0 + q1 * q1) - (p0 * q0 + p1 * q1) * (p0 * q0 + p1 * q1)); [ring|]. rewrite R1, R2, O. ring. }
      rewrite T, O. transitivity (a * a * (level * level) * (z * z) * ((p0 * q1 - p1 * q0) * (p0 * q1 - p1 * q0))); [ring|]. rewrite D. ring. }
    assert (H3 : (w0 * p0 + w1 * p1) * (X * p0 + Y * p1) + (w0 * q0 + w1 * q1) * (X * q0 + Y * q1) = level * level).
    { transitivity (w0 * X * (p0 * p0 + q0 * q0) + w1 * Y * (p1 * p1 + q1 * q1) + (w0 * Y + w1 * X) * (p0 * p1 + q0 * q1)); [ring|]. rewrite K0, K1, K2. rewrite <- H2. ring. }
    assert (H4 : level * level * (c * c * s 1%nat + s 0%nat * (z * z)) = level * level * s 1%nat).
    { assert (A1 : s 0%nat * ((w0 * p0 + w1 * p1) * (X * p0 + Y * p1)) = s 0%nat * (level * level) * (c * c)).
      { rewrite <- Rmult_assoc, W0, XP. rewrite <- T0 at 1. ring. }
      assert (A2 : s 1%nat * ((w0 * q0 + w1 * q1) * (X * q0 + Y * q1)) = s 0%nat * (level * level) * (z * z)).
      { rewrite <- Rmult_assoc, W1, XQ. rewrite T0. ring. }
      assert (A3 : (w0 * p0 + w1 * p1) * (X * p0 + Y * p1) = level * level * (c * c)) by (apply Rmult_eq_reg_l with (s 0%nat); lra).
      replace ((w0 * q0 + w1 * q1) * (X * q0 + Y * q1)) with (level * level - level * level * (c * c)) in A2 by lra. lra. }
    assert (L2 : level * level <> 0) by nra.
    apply Rmult_eq_reg_l in H4; auto.
    assert (H5 : z * z * (s 0%nat - s 1%nat) = 0).
    { replace (c * c) with (1 - z * z) in H4 by lra. lra. }
    apply Rmult_integral in H5. destruct H5 as [H5|H5]; [left; nra|right].
    assert (SE : s 1%nat = s 0%nat) by lra. rewrite SE in E10, E11.
    assert (C00 : C 0%nat 0%nat = s 0%nat).
    { transitivity (C 0%nat 0%nat * (p0 * p0 + q0 * q0) + C 0%nat 1%nat * (p0 * p1 + q0 * q1)); [rewrite K0, K1; ring|].
      transitivity (p0 * (C 0%nat 0%nat * p0 + C 0%nat 1%nat * p1) + q0 * (C 0%nat 0%nat * q0 + C 0%nat 1%nat * q1)); [ring|]. rewrite E00, E10. transitivity (s 0%nat * (p0 * p0 + q0 * q0)); [ring|rewrite K0; ring]. }
    assert (C01 : C 0%nat 1%nat = 0).
    { transitivity (C 0%nat 0%nat * (p0 * p1 + q0 * q1) + C 0%nat 1%nat * (p1 * p1 + q1 * q1)); [rewrite K1, K2; ring|].
      transitivity (p1 * (C 0%nat 0%nat * p0 + C 0%nat 1%nat * p1) + q1 * (C 0%nat 0%nat * q0 + C 0%nat 1%nat * q1)); [ring|]. rewrite E00, E10. transitivity (s 0%nat * (p0 * p1 + q0 * q1)); [ring|rewrite K1; ring]. }
    assert (C11 : C 1%nat 1%nat = s 0%nat).
    { transitivity (C 1%nat 0%nat * (p0 * p1 + q0 * q1) + C 1%nat 1%nat * (p1 * p1 + q1 * q1)); [rewrite K1, K2; ring|].
      transitivity (p1 * (C 1%nat 0%nat * p0 + C 1%nat 1%nat * p1) + q1 * (C 1%nat 0%nat * q0 + C 1%nat 1%nat * q1)); [ring|]. rewrite E01, E11. transitivity (s 0%nat * (p1 * p1 + q1 * q1)); [ring|rewrite K2; ring]. }
    unfold C, cov2 in C00, C01, C11. split; [congruence|exact C01].
  - intros D e I. cbv zeta.
    assert (PE : contour C level (fst e - vx (l_coef f)) (snd e - vy (l_coef f))).
    { refine (proj2 (C111_contour svd (vx (l_coef f), vy (l_coef f)) C level 1000 PD _) e I). rewrite SV. exact HS. }
    destruct (SH (fst e - vx (l_coef f)) (snd e - vy (l_coef f)) (vx (l_coef f), vy (l_coef f))) as [G0 G1]. cbn [fst snd] in G0, G1.
    replace (fst e - vx (l_coef f) + vx (l_coef f)) with (fst e) in G0, G1 by ring. replace (snd e - vy (l_coef f) + vy (l_coef f)) with (snd e) in G0, G1 by ring.
    rewrite <- surjective_pairing, UN in G0, G1. cbn [fst snd] in G0, G1. rewrite G0, G1.
    set (x := fst e - vx (l_coef f)) in *. set (y := snd e - vy (l_coef f)) in *. destruct PE as (w0 & w1 & H0 & H1 & H2). destruct D as [Z|[D1 D2]].
    + rewrite Z in *. assert (CC : cos az * cos az = 1) by lra. exists (cos az * w0), (cos az * w1). rewrite <- H0, <- H1. repeat split; try ring.
      rewrite H0, H1. rewrite <- H2. transitivity (cos az * cos az * (w0 * x + w1 * y)); [ring|rewrite CC; ring].
    + destruct PD as [SY _]. change (C 0%nat 0%nat = C 1%nat 1%nat) in D1. change (C 0%nat 1%nat = 0) in D2. rewrite D2 in SY. rewrite <- SY, D2 in *. rewrite <- D1 in *.
      exists (cos az * w0 + sin az * w1), (- sin az * w0 + cos az * w1). rewrite <- H0, <- H1. repeat split; rewrite ?D2, <- ?SY, <- ?D1; try ring. rewrite <- H2, <- H0, <- H1.
      transitivity ((sin az * sin az + cos az * cos az) * (C 0%nat 0%nat * (w0 * w0 + w1 * w1))); [ring|rewrite SC; ring].
Qed.
(** the witness: a fit to four points dipping south-west *)
Lemma cross_spd : forall inv, numpy_inv inv -> exists f, LinearOrientation inv 4 3 (array_of cross_pts) = Ok f /\
  l_azimuth f = 3 * (PI / 4) /\ l_cov f = M3 (V3 2 0 0) (V3 0 (1 / 2) 0) (V3 0 0 1) /\ spd2 (cov2 (l_cov f)).
Proof.
  intros inv HI. destruct (cross_fit inv HI) as (f & E & AZ & CV). exists f. split; [|split; [|split]]; auto. rewrite CV. split; [reflexivity|].
  intros x y N. unfold quad2, cov2. cbn [r0 r1 vx vy]. pose proof (hyp_pos x y N). nra.
Qed.
(** an SVD of the diagonal covariance of the witness *)
Definition svd_diag2 : svdn_fn := fun _ _ => (idn, fun i => match i with O => 2 | _ => 1 / 2 end, idn).
Lemma svd_diag2_ok : let '(U, s, V) := svd_diag2 2%nat (cov2 (M3 (V3 2 0 0) (V3 0 (1 / 2) 0) (V3 0 0 1))) in
  is_svdn 2 (cov2 (M3 (V3 2 0 0) (V3 0 (1 / 2) 0) (V3 0 0 1))) U s V.
Proof.
  unfold svd_diag2. assert (O : orthogonal 2 idn).
  { split; intros i j I J; unfold mulm, trn; rewrite sumn2; unfold idn; destruct i as [|[|i]], j as [|[|j]]; try lia; simpl; ring. }
  split; [exact O|]. split; [exact O|]. split; [|split].
  - intros [|i] _; lra.
  - intros [|i] [|j] [I J]; try lia; lra.
  - intros i j I J. rewrite sumn2. unfold idn, cov2. destruct i as [|[|i]], j as [|[|j]]; try lia; simpl; lra.
Qed.
Theorem C163_contour_refuted : forall svd inv level, numpy_inv inv -> level <> 0 ->
  (let C := cov2 (M3 (V3 2 0 0) (V3 0 (1 / 2) 0) (V3 0 0 1)) in let '(U, s, V) := svd 2%nat C in is_svdn 2 C U s V) -> exists pts f m e,
  LinearOrientation inv (length pts) 3 (array_of pts) = Ok f /\ rbind (Regression (length pts) 3 (array_of pts)) (coefs inv) = Ok m /\
  In e (l_ellipse svd level f) /\ let g := unrotate (l_azimuth f) e in ~ contour (cov2 (l_cov f)) level (fst g - m 0%nat) (snd g - m 1%nat).
Proof.
  intros svd inv level HI LV HS. destruct (cross_spd inv HI) as (f & E & AZ & CV & PD). destruct (linear_coef inv 4 _ f HI ltac:(lia) E) as (m & M & _).
  assert (X : ~ forall e, In e (l_ellipse svd level f) -> let g := unrotate (l_azimuth f) e in contour (cov2 (l_cov f)) level (fst g - m 0%nat) (snd g - m 1%nat)).
  { intros Q. apply (C163_contour svd inv 4 (array_of cross_pts) f m level HI ltac:(lia) E M PD) in Q; [|rewrite CV; exact HS|exact LV]. rewrite CV, AZ in Q. cbn [r0 r1 vx vy] in Q.
    destruct Q as [Q|Q]; [|lra]. replace (3 * (PI / 4)) with (PI - PI / 4) in Q by field. rewrite sin_minus, sin_PI, cos_PI, sin_PI4 in Q.
    pose proof (Rdiv_lt_0_compat 1 (sqrt 2) ltac:(lra) ltac:(apply sqrt_lt_R0; lra)). lra. }
  apply Classical_Pred_Type.not_all_ex_not in X. destruct X as (e & X). apply Classical_Prop.imply_to_and in X. destruct X as [I X].
  exists cross_pts, f, m, e. repeat split; auto.
Qed.
Example C162_ex : forall inv, numpy_inv inv -> exists f e t p q, LinearOrientation inv 4 3 (array_of cross_pts) = Ok f /\
  In e (l_ellipse svd_diag2 1 f) /\ In (t, p) (l_error_ellipse svd_diag2 true true 1 f) /\ l_vertex f true true e = (t, p) /\
  line_point (degrees p) (degrees t) = Some q /\ MRecon.vec_of q <> pole_of_gradient (unrotate (l_azimuth f) e).
Proof.
  intros inv HI. destruct (cross_spd inv HI) as (f & E & AZ & CV & PD). exists f.
  destruct (C162_misplaced svd_diag2 inv 4 (array_of cross_pts) f 1 HI ltac:(lia) E PD) as (e & t & p & q & H); [rewrite CV; exact svd_diag2_ok|lra|].
  exists e, t, p, q. auto.
Qed.
Example C163_ex : forall inv, numpy_inv inv -> exists f, LinearOrientation inv 4 3 (array_of cross_pts) = Ok f /\
  spd2 (cov2 (l_cov f)) /\ let '(U, s, V) := svd_diag2 2%nat (cov2 (l_cov f)) in is_svdn 2 (cov2 (l_cov f)) U s V.
Proof. intros inv HI. destruct (cross_spd inv HI) as (f & E & _ & CV & PD). exists f. do 2 (split; auto). rewrite CV. exact svd_diag2_ok. Qed.

Print Assumptions C162_vertex.
Print Assumptions C162_centre.
Print Assumptions C162_misplaced.
Print Assumptions C163_contour.
Print Assumptions C163_contour_refuted.
