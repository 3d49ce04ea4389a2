(** C210: repeating measurements; the least angular error. *)
From Coq Require Import Reals Lra Lia List Psatz Arith Permutation.
From Verif Require Import RVec Trig SpecPlane SpecStable SpecRatio SpecRepeat MPca MAxes LSvd LPca LFit LFit2 LAxes PAxes LStable PStable LExamples PRatio.
Import ListNotations.
Open Scope R_scope.

Lemma repeated_length : forall m a, length (repeated m a) = (m * length a)%nat.
Proof. induction m; intros a; [reflexivity|]. unfold repeated in *. cbn [repeat concat]. rewrite app_length, IHm. reflexivity. Qed.
Lemma repeated_sumf : forall (g : vec3 -> R) m a, sumf g (repeated m a) = INR m * sumf g a.
Proof.
  induction m; intros a. { cbn. ring. }
  unfold repeated in *. cbn [repeat concat]. rewrite sumf_app, IHm, S_INR. ring.
Qed.
Lemma repeated_map : forall (g : vec3 -> vec3) m a, map g (repeated m a) = repeated m (map g a).
Proof. induction m; intros a; [reflexivity|]. unfold repeated in *. cbn [repeat concat]. now rewrite map_app, IHm. Qed.
Lemma repeated_mean : forall m a c, (0 < m)%nat -> is_mean c a -> is_mean c (repeated m a).
Proof.
  intros m a c M [N E]. split.
  - intros H. apply (f_equal (@length vec3)) in H. rewrite repeated_length in H. destruct a; [now apply N|]. cbn [length] in H. nia.
  - rewrite repeated_length, mult_INR. unfold vsum in *. rewrite !repeated_sumf.
    unfold vscale in *. injection E as E1 E2 E3. rewrite <- E1, <- E2, <- E3. f_equal; ring.
Qed.

(** Repeating every point, in any order, scales the singular values by the root of the
    number of repetitions and changes neither the centre nor the plane. *)
Theorem C210_repeated : forall svd1 svd2 m arr arr' f f', lapack svd1 -> lapack svd2 -> (0 < m)%nat ->
  Permutation (repeated m arr) arr' ->
  PCAOrientation svd1 arr None None = Ok f -> PCAOrientation svd2 arr' None None = Ok f' ->
  p_mean f' = p_mean f /\ p_n f' = (m * p_n f)%nat /\ p_s f' = vscale (sqrt (INR m)) (p_s f) /\
  (vz (p_s f) < vy (p_s f) -> same_line (p_normal f) (p_normal f')).
Proof.
  intros svd1 svd2 m arr arr' f f' L1 L2 M PM F1 F2.
  destruct (fit_inv _ _ _ L1 F1) as (N1 & _ & c & _ & C1 & _ & _ & M1 & _ & n1 & _).
  destruct (fit_inv _ _ _ L2 F2) as (N2 & _ & c' & _ & C2 & _ & _ & M2 & _ & n2 & _).
  pose proof (repeated_mean m arr c M C1) as CR.
  assert (CC : c' = c).
  { apply mean_unique with arr'; auto. destruct CR as [X Y]. split.
    - intros ->. apply X. apply Permutation_nil. now apply Permutation_sym.
    - rewrite <- (Permutation_length PM), Y. unfold vsum. f_equal; now apply sumf_perm. }
  assert (PI : 0 < INR m) by (apply lt_0_INR; auto).
  destruct (two_fits svd1 svd2 arr arr' f f' mid (sqrt (INR m)) L1 L2 F1 F2 orthonormal_id (sqrt_lt_R0 _ PI)) as [E N].
  { intros d e. rewrite !mv_id, sqrt_sqrt by lra. rewrite <- (Q_perm _ _ d e (centered_perm _ _ PM)).
    rewrite (centered_mean c) by auto. rewrite repeated_map, <- (centered_mean c) by auto. unfold Q. apply repeated_sumf. }
  split; [congruence|]. split; [rewrite n1, n2, <- (Permutation_length PM); apply repeated_length|]. split; [exact E|].
  intros G. specialize (N G). now rewrite mv_id in N.
Qed.

Lemma Rdiv_nonneg : forall x y, 0 <= x -> 0 < y -> 0 <= x / y.
Proof. intros. apply Rmult_le_pos; auto. left. now apply Rinv_0_lt_compat. Qed.
Lemma tangent_floor : forall k r, 0 <= k -> 0 <= r <= 1 -> 1 - k * r <> 0 -> r <= error_tangent k r.
Proof.
  intros k r K R0 N. unfold error_tangent. rewrite <- (Rmult_1_r r) at 1. apply Rmult_le_compat_l; [lra|].
  apply Rle_trans with (sqrt 1); [rewrite sqrt_1; lra|]. apply sqrt_le_1_alt. assert (P : 0 < Rabs (1 - k * r)) by (apply Rabs_pos_lt; auto).
  apply Rmult_le_reg_r with (Rabs (1 - k * r)); auto. replace ((1 + k) / Rabs (1 - k * r) * Rabs (1 - k * r)) with (1 + k) by (field; lra).
  assert (0 <= k * r <= k * 1) by (split; [apply Rmult_le_pos; lra|apply Rmult_le_compat_l; lra]).
  rewrite Rmult_1_l. apply Rabs_le. lra.
Qed.
Lemma tangent_ceiling : forall k r, 0 <= k <= 1 / 2 -> 0 <= r <= 1 -> error_tangent k r <= r * (1 + 2 * k).
Proof.
  intros k r K R0. unfold error_tangent. apply Rmult_le_compat_l; [lra|].
  assert (KR : 0 <= k * r <= k * 1) by (split; [apply Rmult_le_pos; lra|apply Rmult_le_compat_l; lra]).
  rewrite Rabs_pos_eq by lra. rewrite <- (sqrt_square (1 + 2 * k)) by lra. apply sqrt_le_1_alt.
  apply Rmult_le_reg_r with (1 - k * r); [lra|]. replace ((1 + k) / (1 - k * r) * (1 - k * r)) with (1 + k) by (field; lra).
  apply Rle_trans with ((1 + 2 * k) * (1 + 2 * k) * (1 - k)); [nra|]. apply Rmult_le_compat_l; [nra|lra].
Qed.

Lemma angle_floor : forall s s2 m k, 0 < s -> 0 <= s2 <= s -> 0 < m -> 0 <= k ->
  let e := s * s / m in let e2 := s2 * s2 / m in
  atan (s2 / s) <= atan2 (sqrt (e2 + k * sqrt e2 * sqrt e2)) (sqrt (Rabs (sqrt e * sqrt e - k * sqrt e2 * sqrt e))).
Proof.
  intros s s2 m k S0 S2 M K e e2.
  assert (R0 : 0 <= s2 / s <= 1).
  { split; [apply Rdiv_nonneg; lra|]. apply Rmult_le_reg_r with s; auto. replace (s2 / s * s) with s2 by (field; lra). lra. }
  destruct (Req_EM_T (1 - k * (s2 / s)) 0) as [Z|NZ].
  - assert (P2 : 0 < s2). { destruct (Req_EM_T s2 0) as [->|]; [|lra]. unfold Rdiv in Z. rewrite Rmult_0_l, Rmult_0_r in Z. lra. }
    assert (X : forall x, 0 <= x -> sqrt (x * x / m) = x / sqrt m).
    { intros x Hx. rewrite sqrt_div_alt by lra. rewrite sqrt_square; auto. }
    assert (PM : 0 < sqrt m) by (apply sqrt_lt_R0; lra).
    assert (H1 : sqrt e * sqrt e - k * sqrt e2 * sqrt e = 0).
    { unfold e, e2. rewrite !X by lra. replace (s / sqrt m * (s / sqrt m) - k * (s2 / sqrt m) * (s / sqrt m)) with (s * s / (sqrt m * sqrt m) * (1 - k * (s2 / s))) by (field; lra). rewrite Z. ring. }
    rewrite H1, Rabs_R0, sqrt_0.
    assert (H2 : 0 < e2) by (apply Rdiv_lt_0_compat; nra).
    assert (H3 : 0 < sqrt (e2 + k * sqrt e2 * sqrt e2)).
    { apply sqrt_lt_R0. assert (0 <= k * sqrt e2 * sqrt e2) by (rewrite Rmult_assoc; apply Rmult_le_pos; [auto|apply Rle_0_sqr]). lra. }
    rewrite atan2_axis by (auto; lra). unfold Rdiv at 3. rewrite Rmult_0_l, atan_0. pose proof (atan_bound (s2 / s)). lra.
  - destruct (ratio_sqrt s s2 m k S0 ltac:(lra) M K NZ) as (T & P). cbv zeta in T, P. fold e e2 in T, P.
    rewrite atan2_pos by auto. rewrite T. apply atan_le. now apply tangent_floor.
Qed.

(** Whatever the number of points and the quantile, no angular error is less than the
    arctangent of the aspect ratio. *)
Theorem C210_floor : forall svd st arr f z, lapack svd -> PCAOrientation svd arr None None = Ok f ->
  f_ppf st (95/100) 2 (INR (length arr) - 2) = Some z -> 0 <= z -> 0 < vy (p_s f) ->
  exists a b, fit_angular_errors st f = Some (a, b) /\
    degrees (atan (vz (p_s f) / vx (p_s f))) <= a <= 90 /\ degrees (atan (vz (p_s f) / vy (p_s f))) <= b <= 90.
Proof.
  intros svd st arr f z HL HF HZ Z0 P1. destruct (errors_value _ _ _ _ _ HL HF HZ Z0) as (e & E & N3 & V). cbv zeta in V.
  set (n := INR (length arr)) in *. set (k := 2 * z / sqrt (n - 2)) in *.
  destruct (eigenvalues_value _ _ _ _ HL HF E) as (E0 & E1 & E2). fold n in E0, E1, E2.
  destruct (fit_inv _ _ _ HL HF) as (_ & u & m & S & _). pose proof (svd_s12 _ _ _ _ S) as O2.
  pose proof (svd_s01 _ _ _ _ S) as O1. pose proof (svd_s2 _ _ _ _ S) as O3.
  pose proof (k_nonneg z n Z0 N3) as K0. fold k in K0.
  pose proof (angle_floor (vx (p_s f)) (vz (p_s f)) (n - 1) k ltac:(lra) ltac:(lra) ltac:(lra) K0) as A0.
  pose proof (angle_floor (vy (p_s f)) (vz (p_s f)) (n - 1) k ltac:(lra) ltac:(lra) ltac:(lra) K0) as A1.
  cbv zeta in A0, A1. rewrite <- E0, <- E2 in A0. rewrite <- E1, <- E2 in A1.
  assert (D : forall x y, x <= y -> degrees x <= degrees y).
  { intros x y H. pose proof PI_RGT_0. unfold degrees, Rdiv. apply Rmult_le_compat_r; [left; now apply Rinv_0_lt_compat|lra]. }
  assert (U : forall x y, degrees (atan2 (sqrt x) (sqrt y)) <= 90).
  { intros x y. replace 90 with (degrees (PI / 2)). { apply D. apply atan2_quadrant; apply sqrt_pos. } unfold degrees. field. apply Rgt_not_eq, PI_RGT_0. }
  do 2 eexists. split; [exact V|]. repeat split; try apply U; apply D; auto.
Qed.

Definition bounded (st : stats) (Z : R) : Prop := forall x, 1 <= x -> exists z, f_ppf st (95/100) 2 x = Some z /\ 0 <= z <= Z.

(** Repeating measurements the errors come down to that floor, which is the same for
    every number of repetitions, at the rate of the root of their number. *)
Theorem C210_rate : forall svd1 svd2 st Z m arr arr' f f', lapack svd1 -> lapack svd2 -> bounded st Z -> (0 < m)%nat ->
  Permutation (repeated m arr) arr' ->
  PCAOrientation svd1 arr None None = Ok f -> PCAOrientation svd2 arr' None None = Ok f' -> 0 < vy (p_s f) ->
  let k := 2 * Z / sqrt (INR (m * length arr) - 2) in k <= 1 / 2 ->
  exists a b, fit_angular_errors st f' = Some (a, b) /\ 0 <= a < 90 /\ 0 <= b < 90 /\
    vz (p_s f) / vx (p_s f) <= tan (radians a) <= vz (p_s f) / vx (p_s f) * (1 + 2 * k) /\
    vz (p_s f) / vy (p_s f) <= tan (radians b) <= vz (p_s f) / vy (p_s f) * (1 + 2 * k).
Proof.
  intros svd1 svd2 st Z m arr arr' f f' L1 L2 B M PM F1 F2 P1 k K.
  destruct (C210_repeated svd1 svd2 m arr arr' f f' L1 L2 M PM F1 F2) as (_ & _ & ES & _).
  assert (LE : length arr' = (m * length arr)%nat) by (rewrite <- (Permutation_length PM); apply repeated_length).
  assert (EK : k = 2 * Z / sqrt (INR (length arr') - 2)) by (unfold k; now rewrite LE). clearbody k. set (n := INR (length arr')) in *.
  destruct (fit_inv _ _ _ L2 F2) as (N2 & _). assert (N3 : 3 <= n) by (apply (le_INR 3) in N2; simpl in N2; unfold n; lra).
  destruct (B (n - 2) ltac:(lra)) as (z & HZ & Z0).
  destruct (fit_inv _ _ _ L1 F1) as (_ & u & c & S & _). pose proof (svd_s12 _ _ _ _ S) as O2.
  pose proof (svd_s01 _ _ _ _ S) as O1. pose proof (svd_s2 _ _ _ _ S) as O3. clear S u c.
  assert (PI : 0 < sqrt (INR m)) by (apply sqrt_lt_R0, lt_0_INR; auto). set (q := sqrt (INR m)) in *.
  assert (EX : vx (p_s f') = q * vx (p_s f) /\ vy (p_s f') = q * vy (p_s f) /\ vz (p_s f') = q * vz (p_s f)) by (rewrite ES; auto).
  destruct EX as (EX & EY & EZ).
  assert (PR : 0 < sqrt (n - 2)) by (apply sqrt_lt_R0; lra).
  set (k' := 2 * z / sqrt (n - 2)). assert (K' : 0 <= k' <= k).
  { split; [apply Rdiv_nonneg; lra|]. rewrite EK. unfold k', Rdiv. apply Rmult_le_compat_r; [left; now apply Rinv_0_lt_compat|lra]. }
  assert (SM : forall s, 0 < s -> vz (p_s f) <= s -> k' * (q * vz (p_s f)) <> q * s).
  { intros s Hs Hz H. assert (k' * vz (p_s f) <= 1/2 * s) by (apply Rmult_le_compat; lra).
    assert (q * (k' * vz (p_s f)) <= q * (1/2 * s)) by (apply Rmult_le_compat_l; lra). pose proof (Rmult_lt_0_compat q s PI Hs). lra. }
  destruct (C204_closed svd2 st arr' f' z L2 F2 HZ ltac:(lra)) as (a & b & E & A & A' & T0 & T1).
  { rewrite EY. now apply Rmult_lt_0_compat. }
  { fold n k'. rewrite EX, EZ. apply SM; lra. }
  { fold n k'. rewrite EY, EZ. apply SM; lra. }
  fold n k' in T0, T1. rewrite EX, EZ in T0. rewrite EY, EZ in T1.
  replace (q * vz (p_s f) / (q * vx (p_s f))) with (vz (p_s f) / vx (p_s f)) in T0 by (field; lra).
  replace (q * vz (p_s f) / (q * vy (p_s f))) with (vz (p_s f) / vy (p_s f)) in T1 by (field; lra).
  assert (W : forall s, 0 < s -> vz (p_s f) <= s -> vz (p_s f) / s <= error_tangent k' (vz (p_s f) / s) <= vz (p_s f) / s * (1 + 2 * k)).
  { intros s Hs Hz. assert (R0 : 0 <= vz (p_s f) / s <= 1).
    { split; [apply Rdiv_nonneg; lra|]. apply Rmult_le_reg_r with s; auto. replace (vz (p_s f) / s * s) with (vz (p_s f)) by (field; lra). lra. }
    split. { apply tangent_floor; [lra|auto|]. assert (k' * (vz (p_s f) / s) <= 1/2 * 1) by (apply Rmult_le_compat; lra). lra. }
    apply Rle_trans with (vz (p_s f) / s * (1 + 2 * k')); [apply tangent_ceiling; [lra|auto]|]. apply Rmult_le_compat_l; lra. }
  exists a, b. rewrite T0, T1. split; [exact E|]. do 2 (split; [auto|]). split; apply W; lra.
Qed.

(** In the limit: as close to the floor as wanted, but for data that do not lie in a
    plane never close to zero. *)
Theorem C210_limit : forall st Z arr, bounded st Z -> (3 <= length arr)%nat -> forall eps, 0 < eps ->
  exists m0, forall m, (m0 <= m)%nat -> forall svd1 svd2 arr' f f', lapack svd1 -> lapack svd2 ->
  Permutation (repeated m arr) arr' ->
  PCAOrientation svd1 arr None None = Ok f -> PCAOrientation svd2 arr' None None = Ok f' -> 0 < vy (p_s f) ->
  exists a b, fit_angular_errors st f' = Some (a, b) /\
    0 <= tan (radians a) - vz (p_s f) / vx (p_s f) <= eps /\ 0 <= tan (radians b) - vz (p_s f) / vy (p_s f) <= eps.
Proof.
  intros st Z arr B NA eps EP.
  assert (Z0 : 0 <= Z) by (destruct (B 1 ltac:(lra)) as (z & _ & H); lra).
  set (d := Rmin (1/2) (eps / 2)). assert (D0 : 0 < d) by (unfold d; apply Rmin_glb_lt; lra).
  assert (D1 : d <= 1/2) by apply Rmin_l. assert (D2 : d <= eps / 2) by apply Rmin_r.
  destruct (archimed_cor1 (/ ((2 * Z / d) * (2 * Z / d) + 1))) as (m1 & HM & HP). { apply Rinv_0_lt_compat. pose proof (Rle_0_sqr (2 * Z / d)). unfold Rsqr in *. lra. }
  assert (HM' : (2 * Z / d) * (2 * Z / d) < INR m1).
  { apply lt_0_INR in HP. pose proof (Rle_0_sqr (2 * Z / d)). unfold Rsqr in *. assert (HQ : 0 < (2 * Z / d) * (2 * Z / d) + 1) by lra. apply Rinv_0_lt_compat in HQ.
    apply Rinv_lt_contravar in HM; [|apply Rmult_lt_0_compat; [now apply Rinv_0_lt_compat|lra]]. rewrite !Rinv_inv in HM. lra. } clear HM HP.
  exists (S m1). intros m Hm svd1 svd2 arr' f f' L1 L2 PM F1 F2 P1.
  assert (NN : (2 * Z / d) * (2 * Z / d) <= INR (m * length arr) - 2).
  { assert (H : (S m1 * 3 <= m * length arr)%nat) by (apply Nat.mul_le_mono; auto). apply le_INR in H. rewrite mult_INR, S_INR in H. simpl INR in H.
    pose proof (pos_INR m1). lra. }
  assert (G0 : 0 <= 2 * Z / d) by (apply Rdiv_nonneg; lra).
  assert (SQ : 2 * Z / d <= sqrt (INR (m * length arr) - 2)).
  { rewrite <- (sqrt_square (2 * Z / d)) by auto. now apply sqrt_le_1_alt. }
  assert (N1 : 1 <= INR (m * length arr) - 2).
  { assert (H : (1 * 3 <= m * length arr)%nat) by (apply Nat.mul_le_mono; auto; lia). apply le_INR in H. simpl INR in H at 1. lra. }
  assert (PS : 0 < sqrt (INR (m * length arr) - 2)) by (apply sqrt_lt_R0; lra).
  set (q := sqrt (INR (m * length arr) - 2)) in *.
  assert (K : 2 * Z / q <= d).
  { apply Rmult_le_reg_r with q; auto. replace (2 * Z / q * q) with (2 * Z) by (field; lra).
    replace (2 * Z) with (d * (2 * Z / d)) by (field; lra). apply Rmult_le_compat_l; lra. }
  destruct (C210_rate svd1 svd2 st Z m arr arr' f f' L1 L2 B ltac:(lia) PM F1 F2 P1) as (a & b & E & _ & _ & TA & TB).
  { fold q. lra. }
  fold q in TA, TB. exists a, b. split; auto.
  destruct (fit_inv _ _ _ L1 F1) as (_ & u & c & S & _). pose proof (svd_s12 _ _ _ _ S) as O2.
  pose proof (svd_s01 _ _ _ _ S) as O1. pose proof (svd_s2 _ _ _ _ S) as O3. clear S u c.
  assert (W : forall s, 0 < s -> vz (p_s f) <= s -> vz (p_s f) / s * (1 + 2 * (2 * Z / q)) - vz (p_s f) / s <= eps).
  { intros s Hs Hz. assert (R0 : 0 <= vz (p_s f) / s <= 1).
    { split; [apply Rdiv_nonneg; lra|]. apply Rmult_le_reg_r with s; auto. replace (vz (p_s f) / s * s) with (vz (p_s f)) by (field; lra). lra. }
    assert (0 <= 2 * Z / q) by (apply Rdiv_nonneg; lra).
    assert (vz (p_s f) / s * (2 * (2 * Z / q)) <= 1 * eps) by (apply Rmult_le_compat; lra). lra. }
  pose proof (W (vx (p_s f)) ltac:(lra) ltac:(lra)). pose proof (W (vy (p_s f)) ltac:(lra) ltac:(lra)).
  lra.
Qed.

Example C210_ex : exists f f', PCAOrientation svd_ref (axis_data 3 2 1) None None = Ok f /\
  PCAOrientation svd_ref (repeated 1000 (axis_data 3 2 1)) None None = Ok f' /\ bounded (const_stats 7) 7 /\
  2 * 7 / sqrt (INR (1000 * length (axis_data 3 2 1)) - 2) <= 1 / 2 /\ 0 < vy (p_s f) /\
  vz (p_s f) / vx (p_s f) = 1 / 3 /\ vz (p_s f) / vy (p_s f) = 1 / 2.
Proof.
  destruct example_fit as (f & F & S & _). exists f.
  destruct (fit_exists svd_ref (repeated 1000 (axis_data 3 2 1)) lapack_ref) as (f' & F').
  { rewrite repeated_length. apply Nat.leb_le. vm_compute. reflexivity. }
  exists f'. split; [exact F|]. split; [exact F'|].
  assert (P2 : 0 < sqrt 2) by (apply sqrt_lt_R0; lra).
  split. { intros x _. exists 7. split; [reflexivity|lra]. }
  split. { replace (INR (1000 * length (axis_data 3 2 1))) with 6000 by (rewrite mult_INR, !INR_IZR_INZ; simpl; lra).
    assert (28 <= sqrt (6000 - 2)). { rewrite <- (sqrt_square 28) by lra. apply sqrt_le_1_alt; lra. }
    apply Rmult_le_reg_r with (sqrt (6000 - 2)); [lra|]. replace (2 * 7 / sqrt (6000 - 2) * sqrt (6000 - 2)) with 14 by (field; lra). lra. }
  rewrite S; cbn [vx vy vz]. split; [lra|]. split; field; lra.
Qed.

Print Assumptions C210_repeated.
Print Assumptions C210_floor.
Print Assumptions C210_rate.
Print Assumptions C210_limit.
