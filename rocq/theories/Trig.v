(** Library: numpy's [arctan2], [degrees], [radians] over the reals.
    Signed zeros are not modelled ([arctan2 0 (-0.0)] is [arctan2 0 0 = 0]). *)
From Coq Require Import Reals Lra Lia Psatz.
Open Scope R_scope.

Definition degrees (x : R) : R := x * 180 / PI.
Definition radians (x : R) : R := x * PI / 180.

(** numpy.arctan2(y, x) *)
Definition atan2 (y x : R) : R :=
  if Rlt_dec 0 x then atan (y / x)
  else if Rlt_dec x 0 then
    (if Rle_dec 0 y then atan (y / x) + PI else atan (y / x) - PI)
  else if Rlt_dec 0 y then PI / 2
  else if Rlt_dec y 0 then - (PI / 2)
  else 0.

Lemma PI_pos : 0 < PI. Proof. exact PI_RGT_0. Qed.

Lemma degrees_radians : forall x, degrees (radians x) = x.
Proof. intros; unfold degrees, radians; field. pose proof PI_pos; lra. Qed.
Lemma radians_degrees : forall x, radians (degrees x) = x.
Proof. intros; unfold degrees, radians; field. pose proof PI_pos; lra. Qed.
Lemma degrees_plus : forall x y, degrees (x + y) = degrees x + degrees y.
Proof. intros; unfold degrees; field. pose proof PI_pos; lra. Qed.
Lemma degrees_minus : forall x y, degrees (x - y) = degrees x - degrees y.
Proof. intros; unfold degrees; field. pose proof PI_pos; lra. Qed.
Lemma degrees_opp : forall x, degrees (- x) = - degrees x.
Proof. intros; unfold degrees; field. pose proof PI_pos; lra. Qed.
Lemma degrees_PI : degrees PI = 180.
Proof. unfold degrees; field. pose proof PI_pos; lra. Qed.
Lemma degrees_PI2 : degrees (PI / 2) = 90.
Proof. unfold degrees; field. pose proof PI_pos; lra. Qed.
Lemma degrees_0 : degrees 0 = 0.
Proof. unfold degrees; field. pose proof PI_pos; lra. Qed.
Lemma degrees_lt : forall x y, x < y -> degrees x < degrees y.
Proof.
  intros; unfold degrees. apply Rmult_lt_compat_r. { apply Rinv_0_lt_compat, PI_pos. } lra.
Qed.
Lemma degrees_le : forall x y, x <= y -> degrees x <= degrees y.
Proof.
  intros; unfold degrees. apply Rmult_le_compat_r. { left; apply Rinv_0_lt_compat, PI_pos. } lra.
Qed.
Lemma radians_plus : forall x y, radians (x + y) = radians x + radians y.
Proof. intros; unfold radians; field. Qed.
Lemma radians_minus : forall x y, radians (x - y) = radians x - radians y.
Proof. intros; unfold radians; field. Qed.
Lemma radians_opp : forall x, radians (- x) = - radians x.
Proof. intros; unfold radians; field. Qed.
Lemma radians_90 : radians 90 = PI / 2.
Proof. unfold radians; field. Qed.
Lemma radians_180 : radians 180 = PI.
Proof. unfold radians; field. Qed.
Lemma radians_360 : radians 360 = 2 * PI.
Proof. unfold radians; field. Qed.
Lemma radians_0 : radians 0 = 0.
Proof. unfold radians; field. Qed.
Lemma radians_lt : forall x y, x < y -> radians x < radians y.
Proof. intros; unfold radians. pose proof PI_pos. nra. Qed.
Lemma radians_le : forall x y, x <= y -> radians x <= radians y.
Proof. intros; unfold radians. pose proof PI_pos. nra. Qed.

Lemma sincos1 : forall x, sin x * sin x + cos x * cos x = 1.
Proof. intros; pose proof (sin2_cos2 x) as H; unfold Rsqr in H; exact H. Qed.

Lemma sqrt_sq_pos : forall x, 0 <= x -> sqrt (x * x) = x.
Proof. intros; apply sqrt_square; auto. Qed.
Lemma sqrt_sq_abs : forall x, sqrt (x * x) = Rabs x.
Proof. intros; pose proof (sqrt_Rsqr_abs x) as H; unfold Rsqr in H; exact H. Qed.

Lemma hyp_pos : forall x y, (x <> 0 \/ y <> 0) -> 0 < x * x + y * y.
Proof. intros x y [H|H]; nra. Qed.

Lemma sqrt_1_div : forall y x, x <> 0 -> sqrt (1 + (y / x)²) = sqrt (x * x + y * y) / Rabs x.
Proof.
  intros y x H.
  replace (1 + (y / x)²) with ((x * x + y * y) / (x * x)) by (unfold Rsqr; field; auto).
  rewrite sqrt_div_alt by nra. rewrite sqrt_sq_abs. reflexivity.
Qed.

Lemma cos_atan2 : forall y x, (x <> 0 \/ y <> 0) ->
  cos (atan2 y x) = x / sqrt (x * x + y * y).
Proof.
  intros y x H. pose proof (hyp_pos x y H) as Hp.
  assert (Hs : sqrt (x * x + y * y) <> 0) by (apply Rgt_not_eq; now apply sqrt_lt_R0).
  unfold atan2. destruct (Rlt_dec 0 x) as [h|h].
  { rewrite cos_atan, sqrt_1_div by lra. rewrite Rabs_right by lra. field. split; auto; lra. }
  destruct (Rlt_dec x 0) as [h1|h1].
  { assert (E : cos (atan (y / x)) = - x / sqrt (x * x + y * y)).
    { rewrite cos_atan, sqrt_1_div by lra. rewrite Rabs_left by lra. field. split; auto; lra. }
    assert (C1 : forall a, cos (a + PI) = - cos a) by (intros; rewrite neg_cos; reflexivity).
    assert (C2 : forall a, cos (a - PI) = - cos a).
    { intros. replace (cos a) with (cos ((a - PI) + PI)) by (f_equal; ring). rewrite neg_cos; ring. }
    destruct (Rle_dec 0 y); rewrite ?C1, ?C2, E; field; auto. }
  assert (x = 0) by lra. subst x.
  destruct (Rlt_dec 0 y). { rewrite cos_PI2. field. auto. }
  destruct (Rlt_dec y 0). { rewrite cos_neg, cos_PI2. field. auto. }
  exfalso. destruct H; lra.
Qed.

Lemma sin_atan2 : forall y x, (x <> 0 \/ y <> 0) ->
  sin (atan2 y x) = y / sqrt (x * x + y * y).
Proof.
  intros y x H. pose proof (hyp_pos x y H) as Hp.
  assert (Hs : sqrt (x * x + y * y) <> 0) by (apply Rgt_not_eq; now apply sqrt_lt_R0).
  unfold atan2. destruct (Rlt_dec 0 x) as [h|h].
  { rewrite sin_atan, sqrt_1_div by lra. rewrite Rabs_right by lra. field. split; auto; lra. }
  destruct (Rlt_dec x 0) as [h1|h1].
  { assert (E : sin (atan (y / x)) = - y / sqrt (x * x + y * y)).
    { rewrite sin_atan, sqrt_1_div by lra. rewrite Rabs_left by lra. field. split; auto; lra. }
    assert (C1 : forall a, sin (a + PI) = - sin a) by (intros; rewrite neg_sin; reflexivity).
    assert (C2 : forall a, sin (a - PI) = - sin a).
    { intros. replace (sin a) with (sin ((a - PI) + PI)) by (f_equal; ring). rewrite neg_sin; ring. }
    destruct (Rle_dec 0 y); rewrite ?C1, ?C2, E; field; auto. }
  assert (x = 0) by lra. subst x.
  replace (0 * 0 + y * y) with (y * y) in * by ring. rewrite sqrt_sq_abs in *.
  destruct (Rlt_dec 0 y). { rewrite sin_PI2. rewrite Rabs_right by lra. field. lra. }
  destruct (Rlt_dec y 0). { rewrite sin_neg, sin_PI2. rewrite Rabs_left by lra. field. lra. }
  exfalso. destruct H; lra.
Qed.

Lemma atan2_bound : forall y x, - PI < atan2 y x <= PI.
Proof.
  intros y x. pose proof PI_pos. pose proof (atan_bound (y / x)) as B. unfold atan2.
  destruct (Rlt_dec 0 x). { lra. }
  destruct (Rlt_dec x 0) as [hx|hx].
  { destruct (Rle_dec 0 y) as [hy|hy].
    - assert (atan (y / x) <= 0).
      { rewrite <- atan_0. assert (y / x <= 0).
        { unfold Rdiv. assert (/ x < 0) by (apply Rinv_lt_0_compat; auto). nra. }
        destruct (Rle_lt_or_eq_dec _ _ H0) as [h|h]; [left; apply atan_increasing; auto | rewrite h; lra]. }
      lra.
    - assert (0 < atan (y / x)).
      { rewrite <- atan_0. apply atan_increasing. unfold Rdiv.
        assert (/ x < 0) by (apply Rinv_lt_0_compat; auto). nra. }
      lra. }
  destruct (Rlt_dec 0 y). { lra. } destruct (Rlt_dec y 0); lra.
Qed.

Lemma atan2_00 : atan2 0 0 = 0.
Proof. unfold atan2. repeat (destruct (Rlt_dec _ _); try lra). Qed.

Lemma cos_eq_1_small : forall x, - (2 * PI) < x < 2 * PI -> cos x = 1 -> x = 0.
Proof.
  intros x [Hl Hu] H. pose proof PI_pos.
  assert (S : sin (x / 2) = 0).
  { replace x with (2 * (x / 2)) in H by field. rewrite cos_2a_sin in H. nra. }
  destruct (Rtotal_order x 0) as [h|[h|h]]; auto.
  - assert (0 < sin (- (x / 2))) by (apply sin_gt_0; lra). rewrite sin_neg in *. lra.
  - assert (0 < sin (x / 2)) by (apply sin_gt_0; lra). lra.
Qed.

Lemma angle_unique : forall a b, - PI < a <= PI -> - PI < b <= PI ->
  cos a = cos b -> sin a = sin b -> a = b.
Proof.
  intros a b Ha Hb Hc Hs.
  assert (a - b = 0); [|lra]. apply cos_eq_1_small. { lra. }
  rewrite cos_minus, Hc, Hs. pose proof (sincos1 b). lra.
Qed.

(** equality of angles modulo full turns *)
Lemma atan2_of_polar : forall r t, 0 < r -> - PI < t <= PI -> atan2 (r * sin t) (r * cos t) = t.
Proof.
  intros r t Hr Ht.
  assert (E : r * cos t * (r * cos t) + r * sin t * (r * sin t) = r * r).
  { pose proof (sincos1 t). nra. }
  assert (N : r * cos t <> 0 \/ r * sin t <> 0).
  { destruct (Req_EM_T (cos t) 0) as [h|h].
    - right. intro. pose proof (sincos1 t). assert (sin t = 0) by nra. nra.
    - left. intro. assert (cos t = 0) by nra. auto. }
  apply angle_unique; auto. { apply atan2_bound. }
  - rewrite cos_atan2 by auto. rewrite E, sqrt_sq_pos by lra. field. lra.
  - rewrite sin_atan2 by auto. rewrite E, sqrt_sq_pos by lra. field. lra.
Qed.

Lemma atan2_scale : forall k y x, 0 < k -> atan2 (k * y) (k * x) = atan2 y x.
Proof.
  intros k y x Hk.
  destruct (Req_EM_T x 0) as [hx|hx]; [destruct (Req_EM_T y 0) as [hy|hy]|].
  - subst. rewrite !Rmult_0_r. reflexivity.
  - assert (N : x <> 0 \/ y <> 0) by auto.
    assert (N' : k * x <> 0 \/ k * y <> 0) by (right; intro; assert (y = 0) by nra; auto).
    pose proof (hyp_pos _ _ N) as P. apply sqrt_lt_R0 in P.
    assert (E : sqrt (k * x * (k * x) + k * y * (k * y)) = k * sqrt (x * x + y * y)).
    { replace (k * x * (k * x) + k * y * (k * y)) with ((k * k) * (x * x + y * y)) by ring.
      rewrite sqrt_mult_alt by nra. rewrite sqrt_sq_pos by lra. reflexivity. }
    apply angle_unique; try apply atan2_bound.
    + rewrite !cos_atan2 by auto. rewrite E. field. lra.
    + rewrite !sin_atan2 by auto. rewrite E. field. lra.
  - assert (N : x <> 0 \/ y <> 0) by auto.
    assert (N' : k * x <> 0 \/ k * y <> 0) by (left; intro; assert (x = 0) by nra; auto).
    pose proof (hyp_pos _ _ N) as P. apply sqrt_lt_R0 in P.
    assert (E : sqrt (k * x * (k * x) + k * y * (k * y)) = k * sqrt (x * x + y * y)).
    { replace (k * x * (k * x) + k * y * (k * y)) with ((k * k) * (x * x + y * y)) by ring.
      rewrite sqrt_mult_alt by nra. rewrite sqrt_sq_pos by lra. reflexivity. }
    apply angle_unique; try apply atan2_bound.
    + rewrite !cos_atan2 by auto. rewrite E. field. lra.
    + rewrite !sin_atan2 by auto. rewrite E. field. lra.
Qed.

(** opposite direction: half a turn away *)
Lemma atan2_opp : forall y x, (x <> 0 \/ y <> 0) ->
  atan2 (- y) (- x) = if Rle_dec (atan2 y x) 0 then atan2 y x + PI else atan2 y x - PI.
Proof.
  intros y x N. pose proof PI_pos. pose proof (atan2_bound y x) as B.
  assert (N' : - x <> 0 \/ - y <> 0) by (destruct N; [left|right]; lra).
  assert (E : - x * - x + - y * - y = x * x + y * y) by ring.
  pose proof (hyp_pos _ _ N) as P. apply sqrt_lt_R0 in P.
  apply angle_unique. { apply atan2_bound. } { destruct (Rle_dec _ _); lra. }
  - rewrite cos_atan2 by auto. rewrite E. destruct (Rle_dec _ _).
    + rewrite neg_cos, cos_atan2 by auto. field. lra.
    + replace (cos (atan2 y x - PI)) with (- cos (atan2 y x - PI + PI)) by (rewrite neg_cos; ring).
      replace (atan2 y x - PI + PI) with (atan2 y x) by ring. rewrite cos_atan2 by auto. field. lra.
  - rewrite sin_atan2 by auto. rewrite E. destruct (Rle_dec _ _).
    + rewrite neg_sin, sin_atan2 by auto. field. lra.
    + replace (sin (atan2 y x - PI)) with (- sin (atan2 y x - PI + PI)) by (rewrite neg_sin; ring).
      replace (atan2 y x - PI + PI) with (atan2 y x) by ring. rewrite sin_atan2 by auto. field. lra.
Qed.

(** first-quadrant form used for angular errors *)
Lemma atan2_pos : forall y x, 0 < x -> atan2 y x = atan (y / x).
Proof. intros; unfold atan2. destruct (Rlt_dec 0 x); auto; lra. Qed.

Lemma atan_le : forall x y, x <= y -> atan x <= atan y.
Proof. intros x y [H|H]; [left; apply atan_increasing; auto | subst; lra]. Qed.

Lemma atan_nonneg : forall x, 0 <= x -> 0 <= atan x.
Proof. intros; rewrite <- atan_0; apply atan_le; auto. Qed.

Lemma atan2_quadrant : forall y x, 0 <= y -> 0 <= x -> 0 <= atan2 y x <= PI / 2.
Proof.
  intros y x Hy Hx. pose proof PI_pos. unfold atan2.
  destruct (Rlt_dec 0 x) as [h|h].
  { pose proof (atan_bound (y / x)). split; [|lra]. apply atan_nonneg.
    unfold Rdiv. assert (0 < / x) by (apply Rinv_0_lt_compat; auto). nra. }
  destruct (Rlt_dec x 0); try lra.
  destruct (Rlt_dec 0 y); try lra. destruct (Rlt_dec y 0); lra.
Qed.

Lemma cos_acos' : forall x, -1 <= x <= 1 -> cos (acos x) = x.
Proof. exact cos_acos. Qed.

Lemma acos_unique : forall t x, 0 <= t <= PI -> cos t = x -> acos x = t.
Proof. intros t x H E; rewrite <- E; apply acos_cos; auto. Qed.
