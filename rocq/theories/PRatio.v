(** C204: angular errors in closed form.  C205: their stability. *)
From Coq Require Import Reals Lra Lia List Psatz Arith.
From Verif Require Import RVec Trig SpecPlane SpecStable SpecRatio MPca MAxes LSvd LPca LFit LFit2 LAxes PAxes LStable PStable LExamples.
Import ListNotations.
Open Scope R_scope.

Lemma eigenvalues_value : forall svd arr f e, lapack svd -> PCAOrientation svd arr None None = Ok f ->
  eigenvalues f = Some e -> let n := INR (length arr) in
  vx e = vx (p_s f) * vx (p_s f) / (n - 1) /\ vy e = vy (p_s f) * vy (p_s f) / (n - 1) /\
  vz e = vz (p_s f) * vz (p_s f) / (n - 1).
Proof.
  intros svd arr f e HL HF E n. destruct (fit_inv _ _ _ HL HF) as (Hn & u & m & _ & _ & _ & _ & _ & _ & En & _).
  unfold eigenvalues in E. rewrite En, minus_IZR, <- INR_IZR_INZ in E. fold n in E.
  destruct (Req_EM_T (n - 1) 0); [discriminate|]. injection E as <-. simpl. auto.
Qed.

Lemma ratio_sqrt : forall s s2 m k, 0 < s -> 0 <= s2 -> 0 < m -> 0 <= k -> 1 - k * (s2 / s) <> 0 ->
  let e := s * s / m in let e2 := s2 * s2 / m in
  sqrt (e2 + k * sqrt e2 * sqrt e2) / sqrt (Rabs (sqrt e * sqrt e - k * sqrt e2 * sqrt e)) = error_tangent k (s2 / s)
  /\ 0 < sqrt (Rabs (sqrt e * sqrt e - k * sqrt e2 * sqrt e)).
Proof.
  intros s s2 m k Hs H2 Hm Hk NZ e e2.
  assert (Pm : 0 < sqrt m) by (apply sqrt_lt_R0; auto).
  assert (Q : forall x, 0 <= x -> sqrt (x * x / m) = x / sqrt m).
  { intros x Hx. rewrite sqrt_div_alt by auto. rewrite sqrt_square; auto. }
  assert (Se : sqrt e = s / sqrt m) by (apply Q; lra). assert (Se2 : sqrt e2 = s2 / sqrt m) by (apply Q; auto).
  rewrite Se, Se2. assert (MM : sqrt m * sqrt m = m) by (apply sqrt_sqrt; lra).
  assert (A : Rabs (s / sqrt m * (s / sqrt m) - k * (s2 / sqrt m) * (s / sqrt m)) = s * s / m * Rabs (1 - k * (s2 / s))).
  { rewrite <- (Rabs_pos_eq (s * s / m)) at 1 by (apply Rmult_le_pos; [nra|left; apply Rinv_0_lt_compat; auto]).
    rewrite <- Rabs_mult. f_equal. clear - MM Pm Hs. set (w := sqrt m) in *. clearbody w. rewrite <- MM. field. split; lra. }
  assert (B : e2 + k * (s2 / sqrt m) * (s2 / sqrt m) = s2 * s2 / m * (1 + k)).
  { unfold e2. clear - MM Pm. set (w := sqrt m) in *. clearbody w. rewrite <- MM. field. lra. }
  rewrite A, B. assert (AP : 0 < Rabs (1 - k * (s2 / s))) by (apply Rabs_pos_lt; auto).
  assert (P1 : 0 < s * s / m) by (apply Rdiv_lt_0_compat; nra).
  split.
  - rewrite <- sqrt_div_alt by (apply Rmult_lt_0_compat; auto). unfold error_tangent.
    replace (s2 * s2 / m * (1 + k) / (s * s / m * Rabs (1 - k * (s2 / s))))
      with ((s2 / s * (s2 / s)) * ((1 + k) / Rabs (1 - k * (s2 / s)))) by (field; repeat split; lra).
    rewrite sqrt_mult_alt by apply Rle_0_sqr. rewrite sqrt_square; auto.
    apply Rmult_le_pos; [auto|left; apply Rinv_0_lt_compat; auto].
  - apply sqrt_lt_R0. apply Rmult_lt_0_compat; auto.
Qed.

Lemma errors_value : forall svd st arr f z, lapack svd -> PCAOrientation svd arr None None = Ok f ->
  let n := INR (length arr) in f_ppf st (95/100) 2 (n - 2) = Some z -> 0 <= z ->
  exists e, eigenvalues f = Some e /\ 3 <= n /\ let k := 2 * z / sqrt (n - 2) in
  fit_angular_errors st f =
   Some (degrees (atan2 (sqrt (vz e + k * sqrt (vz e) * sqrt (vz e))) (sqrt (Rabs (sqrt (vx e) * sqrt (vx e) - k * sqrt (vz e) * sqrt (vx e))))),
         degrees (atan2 (sqrt (vz e + k * sqrt (vz e) * sqrt (vz e))) (sqrt (Rabs (sqrt (vy e) * sqrt (vy e) - k * sqrt (vz e) * sqrt (vy e)))))).
Proof.
  intros svd st arr f z HL HF n HZ Z0. destruct (fit_has_facts _ _ _ HL HF) as (e & FF). pose proof FF as [E S N N3]. fold n in FF, N, N3.
  exists e. split; auto. split; auto. intro k.
  unfold fit_angular_errors, hyperbolic_axes, noise_axes.
  rewrite (stat_axes_value st default_kw f e n z FF HZ Z0). cbn [obind].
  rewrite angular_errors_value by (apply axes_value_nonneg; auto). cbn [obind].
  destruct (axes_noise default_kw z e n eq_refl S N3) as (-> & -> & ->).
  assert (T : noise_t z n (vz e) = k * sqrt (vz e)).
  { unfold noise_t, k. rewrite sqrt_div_alt by lra. field. apply Rgt_not_eq. apply sqrt_lt_R0. lra. }
  rewrite T. reflexivity.
Qed.

Lemma k_nonneg : forall z n, 0 <= z -> 3 <= n -> 0 <= 2 * z / sqrt (n - 2).
Proof. intros z n Z N. apply Rmult_le_pos; [lra|]. left. apply Rinv_0_lt_compat, sqrt_lt_R0. lra. Qed.

(** Both errors as functions of the aspect ratios only. *)
Theorem C204_closed : forall svd st arr f z, lapack svd -> PCAOrientation svd arr None None = Ok f ->
  let n := INR (length arr) in f_ppf st (95/100) 2 (n - 2) = Some z -> 0 <= z ->
  let k := 2 * z / sqrt (n - 2) in 0 < vy (p_s f) ->
  k * vz (p_s f) <> vx (p_s f) -> k * vz (p_s f) <> vy (p_s f) ->
  exists a b, fit_angular_errors st f = Some (a, b) /\ 0 <= a < 90 /\ 0 <= b < 90 /\
    tan (radians a) = error_tangent k (vz (p_s f) / vx (p_s f)) /\
    tan (radians b) = error_tangent k (vz (p_s f) / vy (p_s f)).
Proof.
  intros svd st arr f z HL HF n HZ Z0 k P1 NX NY.
  destruct (errors_value _ _ _ _ _ HL HF HZ Z0) as (e & E & N3 & V). fold n in N3, V. fold k in V. cbv zeta in V.
  destruct (eigenvalues_value _ _ _ _ HL HF E) as (E0 & E1 & E2). fold n in E0, E1, E2.
  destruct (fit_inv _ _ _ HL HF) as (_ & u & m & S & _).
  pose proof (svd_s01 _ _ _ _ S) as O1. pose proof (svd_s2 _ _ _ _ S) as O3.
  pose proof (k_nonneg z n Z0 N3) as K0. fold k in K0.
  assert (D : forall s, 0 < s -> k * vz (p_s f) <> s -> 1 - k * (vz (p_s f) / s) <> 0).
  { intros s Hs H X. apply H. replace (k * vz (p_s f)) with (k * (vz (p_s f) / s) * s) by (field; lra).
    replace (k * (vz (p_s f) / s)) with 1 by lra. ring. }
  assert (P0 : 0 < vx (p_s f)) by lra.
  destruct (ratio_sqrt (vx (p_s f)) (vz (p_s f)) (n - 1) k P0 O3 ltac:(lra) K0 (D _ P0 NX)) as (T0 & Q0).
  destruct (ratio_sqrt (vy (p_s f)) (vz (p_s f)) (n - 1) k P1 O3 ltac:(lra) K0 (D _ P1 NY)) as (T1 & Q1).
  cbv zeta in T0, T1, Q0, Q1. rewrite <- E0, <- E2 in T0, Q0. rewrite <- E1, <- E2 in T1, Q1.
  do 2 eexists. split. exact V. rewrite !radians_degrees, !atan2_pos by auto. rewrite !atan_right_inv, T0, T1.
  assert (R : forall t, 0 <= t -> 0 <= degrees (atan t) < 90).
  { intros t Ht. pose proof (atan_bound t). pose proof PI_RGT_0. assert (0 <= atan t).
    { rewrite <- atan_0. destruct Ht as [Ht|<-]; [left; apply atan_increasing; auto | lra]. }
    unfold degrees. split. apply Rmult_le_pos; [lra|left; apply Rinv_0_lt_compat; auto].
    apply Rmult_lt_reg_r with PI; auto. unfold Rdiv. rewrite Rmult_assoc, Rinv_l by lra. lra. }
  assert (G : forall s, 0 < s -> 0 <= error_tangent k (vz (p_s f) / s)).
  { intros s Hs. unfold error_tangent. apply Rmult_le_pos; [|apply sqrt_pos].
    apply Rmult_le_pos; [auto|left; apply Rinv_0_lt_compat; auto]. }
  split; [apply R; auto|]. split; [apply R; auto|]. auto.
Qed.

(** Where the in-plane axis is folded to nothing the error is a right angle. *)
Theorem C204_right_angle : forall svd st arr f z, lapack svd -> PCAOrientation svd arr None None = Ok f ->
  let n := INR (length arr) in f_ppf st (95/100) 2 (n - 2) = Some z -> 0 <= z ->
  let k := 2 * z / sqrt (n - 2) in 0 < vz (p_s f) -> k * vz (p_s f) = vy (p_s f) ->
  exists a, fit_angular_errors st f = Some (a, 90).
Proof.
  intros svd st arr f z HL HF n HZ Z0 k P EQ.
  destruct (errors_value _ _ _ _ _ HL HF HZ Z0) as (e & E & N3 & V). fold n in N3, V. fold k in V. cbv zeta in V.
  destruct (eigenvalues_value _ _ _ _ HL HF E) as (E0 & E1 & E2). fold n in E0, E1, E2.
  destruct (fit_inv _ _ _ HL HF) as (_ & u & m & S & _). pose proof (svd_s12 _ _ _ _ S) as O2.
  pose proof (k_nonneg z n Z0 N3) as K0. fold k in K0.
  rewrite V. eexists. f_equal. f_equal.
  assert (X : forall x, 0 <= x -> sqrt (x * x / (n - 1)) = x / sqrt (n - 1)).
  { intros x Hx. rewrite sqrt_div_alt by lra. rewrite sqrt_square; auto. }
  assert (PM : 0 < sqrt (n - 1)) by (apply sqrt_lt_R0; lra).
  assert (H1 : sqrt (vy e) * sqrt (vy e) - k * sqrt (vz e) * sqrt (vy e) = 0).
  { rewrite E1, E2, !X by lra. rewrite <- EQ. field. lra. }
  rewrite H1, Rabs_R0, sqrt_0.
  assert (H2 : 0 < vz e) by (rewrite E2; apply Rdiv_lt_0_compat; nra).
  assert (H3 : 0 < sqrt (vz e + k * sqrt (vz e) * sqrt (vz e))).
  { apply sqrt_lt_R0. assert (0 <= k * sqrt (vz e) * sqrt (vz e)) by (rewrite Rmult_assoc; apply Rmult_le_pos; [auto|apply Rle_0_sqr]). lra. }
  rewrite atan2_axis by (auto; lra). unfold Rdiv at 2. rewrite Rmult_0_l, atan_0. unfold degrees. field. apply Rgt_not_eq, PI_RGT_0.
Qed.

(** Plane well defined: the error is between the aspect ratio times two constants. *)
Theorem C204_bounds : forall k rho, 0 <= k -> 0 <= rho -> k * rho <= 1 / 2 ->
  rho * sqrt (1 + k) <= error_tangent k rho <= rho * sqrt (2 * (1 + k)).
Proof.
  intros k rho K R H. unfold error_tangent. assert (0 <= k * rho) by (apply Rmult_le_pos; auto).
  rewrite Rabs_pos_eq by lra.
  assert (I1 : 1 <= / (1 - k * rho)) by (rewrite <- Rinv_1; apply Rinv_le_contravar; lra).
  assert (I2 : / (1 - k * rho) <= 2) by (replace 2 with (/ (1 / 2)) by field; apply Rinv_le_contravar; lra).
  split; apply Rmult_le_compat_l; auto; apply sqrt_le_1_alt; unfold Rdiv.
  - rewrite <- (Rmult_1_r (1 + k)) at 1. apply Rmult_le_compat_l; lra.
  - rewrite (Rmult_comm 2). apply Rmult_le_compat_l; lra.
Qed.

(** Two fits of as many points with the same aspect ratios have the same errors. *)
Theorem C204_scale : forall svd1 svd2 st arr arr' f f' z c, lapack svd1 -> lapack svd2 ->
  PCAOrientation svd1 arr None None = Ok f -> PCAOrientation svd2 arr' None None = Ok f' ->
  length arr = length arr' -> f_ppf st (95/100) 2 (INR (length arr) - 2) = Some z -> 0 <= z ->
  0 < c -> p_s f' = vscale c (p_s f) -> fit_angular_errors st f' = fit_angular_errors st f.
Proof.
  intros svd1 svd2 st arr arr' f f' z c L1 L2 F F' LE HZ Z0 C S.
  destruct (errors_value _ _ _ _ _ L1 F HZ Z0) as (e & E & N3 & V).
  rewrite LE in HZ. destruct (errors_value _ _ _ _ _ L2 F' HZ Z0) as (e' & E' & _ & V'). rewrite <- LE in V'.
  destruct (eigenvalues_value _ _ _ _ L1 F E) as (E0 & E1 & E2). destruct (eigenvalues_value _ _ _ _ L2 F' E') as (E0' & E1' & E2').
  rewrite <- LE in E0', E1', E2'. rewrite S in E0', E1', E2'. simpl in E0', E1', E2'.
  rewrite V, V'. clear V V'. cbv zeta. set (n := INR (length arr)) in *. set (k := 2 * z / sqrt (n - 2)) in *.
  assert (X : forall x, c * x * (c * x) / (n - 1) = c * c * (x * x / (n - 1))) by (intro; field; lra).
  rewrite X, <- E0 in E0'. rewrite X, <- E1 in E1'. rewrite X, <- E2 in E2'.
  assert (Q : forall x, sqrt (c * c * x) = c * sqrt x).
  { intro x. rewrite sqrt_mult_alt by nra. rewrite sqrt_square; lra. }
  assert (A : forall x, sqrt (Rabs (sqrt (c * c * x) * sqrt (c * c * x) - k * sqrt (c * c * vz e) * sqrt (c * c * x)))
     = c * sqrt (Rabs (sqrt x * sqrt x - k * sqrt (vz e) * sqrt x))).
  { intro x. rewrite !Q. replace (c * sqrt x * (c * sqrt x) - k * (c * sqrt (vz e)) * (c * sqrt x))
      with (c * c * (sqrt x * sqrt x - k * sqrt (vz e) * sqrt x)) by ring.
    rewrite Rabs_mult, (Rabs_pos_eq (c * c)) by nra. apply Q. }
  assert (B : sqrt (c * c * vz e + k * sqrt (c * c * vz e) * sqrt (c * c * vz e)) = c * sqrt (vz e + k * sqrt (vz e) * sqrt (vz e))).
  { rewrite !Q. replace (c * c * vz e + k * (c * sqrt (vz e)) * (c * sqrt (vz e))) with (c * c * (vz e + k * sqrt (vz e) * sqrt (vz e))) by ring. apply Q. }
  rewrite E0', E1', E2', !A, B, !atan2_scale by auto. reflexivity.
Qed.

Lemma tangent_lipschitz : forall k a b, 0 <= k -> 0 <= a -> 0 <= b -> k * a <= 1 / 2 -> k * b <= 1 / 2 ->
  Rabs (error_tangent k a - error_tangent k b) <= 3 / sqrt 2 * sqrt (1 + k) * Rabs (a - b).
Proof.
  assert (W : forall k a b, 0 <= k -> 0 <= b -> b <= a -> k * a <= 1 / 2 -> k * b <= 1 / 2 ->
    0 <= error_tangent k a - error_tangent k b <= 3 / sqrt 2 * sqrt (1 + k) * (a - b)).
  { intros k a b K B AB HA HB. unfold error_tangent.
    assert (0 <= k * b) by (apply Rmult_le_pos; auto). assert (k * b <= k * a) by (apply Rmult_le_compat_l; auto).
    rewrite !Rabs_pos_eq by lra. rewrite !sqrt_div_alt by lra.
    set (w := sqrt (1 - k * a)). set (v := sqrt (1 - k * b)). set (h := sqrt (1 / 2)).
    assert (S2 : 0 < sqrt 2) by (apply sqrt_lt_R0; lra). assert (S22 : sqrt 2 * sqrt 2 = 2) by (apply sqrt_sqrt; lra).
    assert (HH : h * h = 1 / 2) by (apply sqrt_sqrt; lra). assert (Hpos : 0 < h) by (apply sqrt_lt_R0; lra).
    assert (Hh : / h = sqrt 2).
    { assert (h = / sqrt 2) by (unfold h; rewrite sqrt_div_alt by lra; rewrite sqrt_1; unfold Rdiv; ring). match goal with Z : h = _ |- _ => rewrite Z end. apply Rinv_inv. }
    assert (WW : w * w = 1 - k * a) by (apply sqrt_sqrt; lra). assert (VV : v * v = 1 - k * b) by (apply sqrt_sqrt; lra).
    assert (HW : h <= w) by (apply sqrt_le_1_alt; lra). assert (WV : w <= v) by (apply sqrt_le_1_alt; lra).
    set (q := sqrt (1 + k)). assert (Q0 : 0 <= q) by apply sqrt_pos.
    assert (E : a * (q / w) - b * (q / v) = q * ((a - b) * / w + b * ((v - w) / (w * v)))) by (field; split; lra).
    rewrite E.
    assert (VW : (v - w) * (v + w) = k * (a - b)) by lra.
    assert (IW : / w <= sqrt 2) by (rewrite <- Hh; apply Rinv_le_contravar; auto).
    assert (IW0 : 0 < / w) by (apply Rinv_0_lt_compat; lra).
    assert (D : (v - w) / (w * v) <= sqrt 2 * (k * (a - b))).
    { rewrite <- VW. replace ((v - w) / (w * v)) with ((v - w) * / (w * v)) by reflexivity.
      replace (sqrt 2 * ((v - w) * (v + w))) with ((v - w) * (sqrt 2 * (v + w))) by ring.
      apply Rmult_le_compat_l; [lra|].
      assert (1 / 2 <= w * v) by (rewrite <- HH; apply Rmult_le_compat; lra).
      assert (/ (w * v) <= 2) by (replace 2 with (/ (1 / 2)) by field; apply Rinv_le_contravar; lra).
      assert (2 * h <= v + w) by lra.
      assert (sqrt 2 * (2 * h) <= sqrt 2 * (v + w)) by (apply Rmult_le_compat_l; lra).
      assert (sqrt 2 * h = 1) by (rewrite <- Hh; field; lra). lra. }
    assert (D0 : 0 <= (v - w) / (w * v)).
    { apply Rmult_le_pos; [lra|]. left. apply Rinv_0_lt_compat. apply Rmult_lt_0_compat; lra. }
    assert (T1 : (a - b) * / w <= (a - b) * sqrt 2) by (apply Rmult_le_compat_l; lra).
    assert (T0 : 0 <= (a - b) * / w) by (apply Rmult_le_pos; lra).
    assert (T2 : b * ((v - w) / (w * v)) <= b * (sqrt 2 * (k * (a - b)))) by (apply Rmult_le_compat_l; auto).
    assert (T20 : 0 <= b * ((v - w) / (w * v))) by (apply Rmult_le_pos; auto).
    assert (T3 : b * (sqrt 2 * (k * (a - b))) <= 1 / 2 * sqrt 2 * (a - b)).
    { replace (b * (sqrt 2 * (k * (a - b)))) with (k * b * (sqrt 2 * (a - b))) by ring.
      rewrite (Rmult_assoc (1 / 2)). apply Rmult_le_compat_r; [apply Rmult_le_pos; lra | lra]. }
    split. { apply Rmult_le_pos; lra. }
    replace (3 / sqrt 2) with (3 / 2 * sqrt 2) by (rewrite <- S22 at 1; field; lra).
    replace (3 / 2 * sqrt 2 * q * (a - b)) with (q * (3 / 2 * sqrt 2 * (a - b))) by ring.
    apply Rmult_le_compat_l; auto. lra. }
  intros k a b K A B HA HB. destruct (Rle_dec b a) as [L|L].
  - pose proof (W k a b K B L HA HB). rewrite !Rabs_pos_eq by lra. lra.
  - pose proof (W k b a K A ltac:(lra) HB HA). rewrite (Rabs_minus_sym a), (Rabs_minus_sym (error_tangent k a)), !Rabs_pos_eq by lra. lra.
Qed.

Lemma Rabs_le_inv : forall x r, Rabs x <= r -> - r <= x <= r.
Proof. intros x r H. unfold Rabs in H. destruct (Rcase_abs x); lra. Qed.

Lemma ratio_change : forall s t s' t' r, 0 <= t <= s -> 0 <= t' -> 0 <= r < s ->
  Rabs (s' - s) <= r -> Rabs (t' - t) <= r -> Rabs (t' / s' - t / s) <= 2 * r / (s - r) /\ 0 < s' /\ t' / s' <= (t + r) / (s - r).
Proof.
  intros s t s' t' r T T' R S' D. apply Rabs_le_inv in S'. pose proof (Rabs_le_inv _ _ D) as D'.
  assert (P : 0 < s') by lra. split; [|split; auto].
  - replace (t' / s' - t / s) with (((t' - t) * s - t * (s' - s)) / (s * s')) by (field; lra).
    unfold Rdiv. rewrite Rabs_mult, (Rabs_pos_eq (/ (s * s'))) by (left; apply Rinv_0_lt_compat; nra).
    assert (N : Rabs ((t' - t) * s - t * (s' - s)) <= 2 * r * s).
    { eapply Rle_trans; [apply Rabs_triang|]. rewrite Rabs_Ropp, !Rabs_mult, (Rabs_pos_eq s), (Rabs_pos_eq t) by lra.
      assert (Rabs (t' - t) * s <= r * s) by (apply Rmult_le_compat_r; lra).
      assert (t * Rabs (s' - s) <= s * r) by (apply Rmult_le_compat; try lra; [apply Rabs_pos | apply Rabs_le; lra]). lra. }
    apply Rle_trans with (2 * r * s * / (s * s')).
    + apply Rmult_le_compat_r; auto. left; apply Rinv_0_lt_compat; nra.
    + replace (2 * r * s * / (s * s')) with (2 * r * / s') by (field; lra).
      apply Rmult_le_compat_l; [lra|]. apply Rinv_le_contravar; lra.
  - apply Rle_trans with ((t + r) / s').
    + unfold Rdiv. apply Rmult_le_compat_r; [left; apply Rinv_0_lt_compat; auto | lra].
    + unfold Rdiv. apply Rmult_le_compat_l; [lra|]. apply Rinv_le_contravar; lra.
Qed.

(** Errors in the coordinates: the tangents of the angular errors of a well defined
    plane change by a bounded multiple of them. *)
Theorem C205_stable : forall svd1 svd2 st arr arr' f f' z e, lapack svd1 -> lapack svd2 ->
  PCAOrientation svd1 arr None None = Ok f -> PCAOrientation svd2 arr' None None = Ok f' ->
  0 <= e -> moved e arr arr' ->
  let n := INR (length arr) in f_ppf st (95/100) 2 (n - 2) = Some z -> 0 <= z ->
  let k := 2 * z / sqrt (n - 2) in let r := e * sqrt n in
  r < vy (p_s f) -> k * ((vz (p_s f) + r) / (vy (p_s f) - r)) <= 1 / 2 ->
  exists a b a' b', fit_angular_errors st f = Some (a, b) /\ fit_angular_errors st f' = Some (a', b') /\
    Rabs (tan (radians a') - tan (radians a)) <= 3 / sqrt 2 * sqrt (1 + k) * (2 * r / (vx (p_s f) - r)) /\
    Rabs (tan (radians b') - tan (radians b)) <= 3 / sqrt 2 * sqrt (1 + k) * (2 * r / (vy (p_s f) - r)).
Proof.
  intros svd1 svd2 st arr arr' f f' z e L1 L2 F F' E M n HZ Z0 k r HR HK.
  destruct (C198_singular _ _ _ _ _ _ _ L1 L2 F F' E M) as (D0 & D1 & D2). fold n r in D0, D1, D2.
  assert (LE : length arr = length arr') by (eapply moved_length; eauto).
  destruct (fit_inv _ _ _ L1 F) as (N & u & m & S & _). destruct (fit_inv _ _ _ L2 F') as (_ & u' & m' & S' & _).
  pose proof (svd_s01 _ _ _ _ S) as O1. pose proof (svd_s12 _ _ _ _ S) as O2. pose proof (svd_s2 _ _ _ _ S) as O3.
  pose proof (svd_s01 _ _ _ _ S') as O1'. pose proof (svd_s12 _ _ _ _ S') as O2'. pose proof (svd_s2 _ _ _ _ S') as O3'.
  assert (N3 : 3 <= n) by (unfold n; replace 3 with (INR 3) by (simpl; ring); apply le_INR; auto).
  pose proof (k_nonneg z n Z0 N3) as K0. fold k in K0.
  assert (R0 : 0 <= r) by (apply Rmult_le_pos; [auto|apply sqrt_pos]).
  destruct (ratio_change (vx (p_s f)) (vz (p_s f)) (vx (p_s f')) (vz (p_s f')) r ltac:(lra) O3' ltac:(lra) D0 D2) as (X0 & P0 & Y0).
  destruct (ratio_change (vy (p_s f)) (vz (p_s f)) (vy (p_s f')) (vz (p_s f')) r ltac:(lra) O3' ltac:(lra) D1 D2) as (X1 & P1 & Y1).
  assert (MONO : forall s, vy (p_s f) <= s -> (vz (p_s f) + r) / (s - r) <= (vz (p_s f) + r) / (vy (p_s f) - r)).
  { intros s Hs. unfold Rdiv. apply Rmult_le_compat_l; [lra|]. apply Rinv_le_contravar; lra. }
  assert (OWN : forall s, vy (p_s f) <= s -> vz (p_s f) / s <= (vz (p_s f) + r) / (s - r)).
  { intros s Hs. apply Rle_trans with ((vz (p_s f) + r) / s); unfold Rdiv.
    - apply Rmult_le_compat_r; [left; apply Rinv_0_lt_compat; lra|lra].
    - apply Rmult_le_compat_l; [lra|]. apply Rinv_le_contravar; lra. }
  assert (LIM : forall q, q <= (vz (p_s f) + r) / (vy (p_s f) - r) -> k * q <= 1 / 2).
  { intros q Hq. apply Rle_trans with (k * ((vz (p_s f) + r) / (vy (p_s f) - r))); auto. apply Rmult_le_compat_l; auto. }
  pose proof (MONO _ O1) as M0. pose proof (OWN _ O1) as W0. pose proof (OWN _ (Rle_refl _)) as W1.
  assert (Q0 : k * (vz (p_s f) / vx (p_s f)) <= 1 / 2) by (apply LIM; lra).
  assert (Q1 : k * (vz (p_s f) / vy (p_s f)) <= 1 / 2) by (apply LIM; lra).
  assert (Q0' : k * (vz (p_s f') / vx (p_s f')) <= 1 / 2) by (apply LIM; lra).
  assert (Q1' : k * (vz (p_s f') / vy (p_s f')) <= 1 / 2) by (apply LIM; lra).
  assert (NE : forall s t, 0 < s -> k * (t / s) <= 1 / 2 -> k * t <> s).
  { intros s t Hs H X. replace (k * (t / s)) with (k * t / s) in H by (field; lra). rewrite X in H.
    replace (s / s) with 1 in H by (field; lra). lra. }
  destruct (C204_closed _ _ _ _ _ L1 F HZ Z0) as (a & b & EV & _ & _ & TA & TB); try (fold n k; auto); try lra.
  { apply NE; auto; lra. } { apply NE; auto; lra. }
  assert (HZ' : f_ppf st (95/100) 2 (INR (length arr') - 2) = Some z) by (rewrite <- LE; exact HZ).
  assert (KE : 2 * z / sqrt (INR (length arr') - 2) = k) by (rewrite <- LE; reflexivity).
  destruct (C204_closed _ _ _ _ _ L2 F' HZ' Z0) as (a' & b' & EV' & _ & _ & TA' & TB'); try (rewrite KE); auto.
  rewrite KE in TA', TB'. fold n k in TA, TB.
  assert (POS : forall s t, 0 <= t -> 0 < s -> 0 <= t / s) by (intros; apply Rmult_le_pos; [auto|left; apply Rinv_0_lt_compat; auto]).
  assert (C0 : 0 <= 3 / sqrt 2 * sqrt (1 + k)).
  { apply Rmult_le_pos; [|apply sqrt_pos]. apply Rmult_le_pos; [lra|]. left. apply Rinv_0_lt_compat, sqrt_lt_R0. lra. }
  exists a, b, a', b'. split; auto. split; auto. rewrite TA, TB, TA', TB'. split.
  - eapply Rle_trans. { apply tangent_lipschitz; auto; apply POS; lra. } apply Rmult_le_compat_l; auto.
  - eapply Rle_trans. { apply tangent_lipschitz; auto; apply POS; lra. } apply Rmult_le_compat_l; auto.
Qed.

(** Points 100 x 50 x 1, moved by up to 1/10, with a quantile of 5 *)
Example C205_ex : exists f f', PCAOrientation svd_ref (axis_data 100 50 1) None None = Ok f /\
  PCAOrientation svd_ref (axis_data 100 50 (9/10)) None None = Ok f' /\
  moved (1/10) (axis_data 100 50 1) (axis_data 100 50 (9/10)) /\
  let n := INR (length (axis_data 100 50 1)) in let k := 2 * 5 / sqrt (n - 2) in let r := 1/10 * sqrt n in
  r < vy (p_s f) /\ k * ((vz (p_s f) + r) / (vy (p_s f) - r)) <= 1 / 2.
Proof.
  destruct (axis_fit 100 50 1) as [f F]. destruct (axis_fit 100 50 (9/10)) as [f' F'].
  exists f, f'. split; auto. split; auto. split.
  - unfold moved, axis_data.
    assert (K : forall p q, nrm2 (vsub q p) <= 1/10 * (1/10) -> norm (vsub q p) <= 1/10).
    { intros p q Z. apply sq_le; [lra|]. now rewrite norm_sqr. }
    do 6 (apply Forall2_cons; [apply K; vunf; lra|]); apply Forall2_nil.
  - assert (N6 : INR (length (axis_data 100 50 1)) = 6) by (simpl; ring). rewrite N6. cbv zeta.
    rewrite (axis_singular _ 100 50 1 _ lapack_ref ltac:(lra) ltac:(lra) F). simpl.
    replace (sqrt (6 - 2)) with 2. 2:{ replace (6 - 2) with (2 * 2) by ring. rewrite sqrt_square; lra. }
    assert (P2 : 0 < sqrt 2) by (apply sqrt_lt_R0; lra). assert (S2 : sqrt 2 * sqrt 2 = 2) by (apply sqrt_sqrt; lra).
    assert (U2 : sqrt 2 <= 3/2) by (apply sq_le; lra). assert (L2 : 1 <= sqrt 2) by (rewrite <- sqrt_1 at 1; apply sqrt_le_1_alt; lra).
    assert (U6 : sqrt 6 <= 5/2) by (apply sq_le; [lra|]; rewrite sqrt_sqrt; lra).
    assert (P6 : 0 <= sqrt 6) by apply sqrt_pos.
    split; [lra|].
    assert (D : 0 < sqrt 2 * 50 - 1/10 * sqrt 6) by lra.
    apply Rmult_le_reg_r with (sqrt 2 * 50 - 1/10 * sqrt 6); auto.
    replace (2 * 5 / 2 * ((sqrt 2 * 1 + 1/10 * sqrt 6) / (sqrt 2 * 50 - 1/10 * sqrt 6)) * (sqrt 2 * 50 - 1/10 * sqrt 6))
      with (5 * (sqrt 2 * 1 + 1/10 * sqrt 6)) by (field; lra). lra.
Qed.
(** and [C204_closed] applies to the first: k = 5 *)
Example C204_ex : exists f a b, PCAOrientation svd_ref (axis_data 100 50 1) None None = Ok f /\
  fit_angular_errors (const_stats 5) f = Some (a, b) /\ 1 / 100 * sqrt 6 <= tan (radians a) <= 1 / 100 * sqrt 12 /\
  1 / 50 * sqrt 6 <= tan (radians b) <= 1 / 50 * sqrt 12.
Proof.
  destruct (axis_fit 100 50 1) as [f F]. pose proof (axis_singular _ 100 50 1 _ lapack_ref ltac:(lra) ltac:(lra) F) as S.
  assert (N6 : INR (length (axis_data 100 50 1)) = 6) by (simpl; ring).
  assert (P2 : 0 < sqrt 2) by (apply sqrt_lt_R0; lra).
  assert (K : 2 * 5 / sqrt (6 - 2) = 5).
  { replace (sqrt (6 - 2)) with 2. field. replace (6 - 2) with (2 * 2) by ring. rewrite sqrt_square; lra. }
  destruct (C204_closed svd_ref (const_stats 5) (axis_data 100 50 1) f 5 lapack_ref F) as (a & b & E & _ & _ & TA & TB).
  { reflexivity. } { lra. } { rewrite S; simpl; lra. }
  { rewrite N6, K, S; simpl; lra. } { rewrite N6, K, S; simpl; lra. }
  exists f, a, b. split; auto. split; auto. rewrite TA, TB, N6, K, S. simpl.
  replace (sqrt 2 * 1 / (sqrt 2 * 100)) with (1 / 100) by (field; lra).
  replace (sqrt 2 * 1 / (sqrt 2 * 50)) with (1 / 50) by (field; lra).
  pose proof (C204_bounds 5 (1/100) ltac:(lra) ltac:(lra) ltac:(lra)).
  pose proof (C204_bounds 5 (1/50) ltac:(lra) ltac:(lra) ltac:(lra)).
  replace 6 with (1 + 5) by ring. replace 12 with (2 * (1 + 5)) by ring. auto.
Qed.

(** with the quantile 50 instead the second axis folds to nothing *)
Example C204_right_angle_ex : exists f a, PCAOrientation svd_ref (axis_data 100 50 1) None None = Ok f /\
  fit_angular_errors (const_stats 50) f = Some (a, 90).
Proof.
  destruct (axis_fit 100 50 1) as [f F]. pose proof (axis_singular _ 100 50 1 _ lapack_ref ltac:(lra) ltac:(lra) F) as S.
  assert (N6 : INR (length (axis_data 100 50 1)) = 6) by (simpl; ring).
  assert (P2 : 0 < sqrt 2) by (apply sqrt_lt_R0; lra).
  assert (K : 2 * 50 / sqrt (6 - 2) = 50).
  { replace (sqrt (6 - 2)) with 2. field. replace (6 - 2) with (2 * 2) by ring. rewrite sqrt_square; lra. }
  destruct (C204_right_angle svd_ref (const_stats 50) (axis_data 100 50 1) f 50 lapack_ref F) as (a & E).
  { reflexivity. } { lra. } { rewrite S; simpl; lra. } { rewrite N6, K, S; simpl; lra. }
  exists f, a. auto.
Qed.
(** and the same outcrop in units half as long *)
Example C204_scale_ex : exists f f', PCAOrientation svd_ref (axis_data 100 50 1) None None = Ok f /\
  PCAOrientation svd_ref (axis_data 200 100 2) None None = Ok f' /\ p_s f' = vscale 2 (p_s f) /\
  fit_angular_errors (const_stats 5) f' = fit_angular_errors (const_stats 5) f.
Proof.
  destruct (axis_fit 100 50 1) as [f F]. destruct (axis_fit 200 100 2) as [f' F'].
  pose proof (axis_singular _ 100 50 1 _ lapack_ref ltac:(lra) ltac:(lra) F) as S.
  pose proof (axis_singular _ 200 100 2 _ lapack_ref ltac:(lra) ltac:(lra) F') as S'.
  assert (Q : p_s f' = vscale 2 (p_s f)) by (rewrite S, S'; vunf; f_equal; ring).
  exists f, f'. do 3 (split; [auto|]).
  apply (C204_scale svd_ref svd_ref (const_stats 5) (axis_data 100 50 1) (axis_data 200 100 2) f f' 5 2); auto using lapack_ref; lra.
Qed.

Print Assumptions C204_closed.
Print Assumptions C204_right_angle.
Print Assumptions C204_bounds.
Print Assumptions C204_scale.
Print Assumptions C205_stable.
