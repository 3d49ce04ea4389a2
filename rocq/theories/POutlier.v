(** C231: one point far away. *)
From Coq Require Import Reals Lra Lia List Psatz Arith Permutation.
From Verif Require Import RVec Trig SpecPlane SpecRepeat MPca MAxes LSvd LPca LFit LFit2 LAngles LStable LExamples PPca PRatio PRepeat PMore.
Import ListNotations.
Open Scope R_scope.

Lemma outlier_mean : forall arr m p, is_mean m arr ->
  is_mean (vadd m (vscale (/ (INR (length arr) + 1)) (vsub p m))) (arr ++ [p]).
Proof.
  intros arr m p [NE E]. split; [destruct arr; discriminate|]. rewrite app_length, plus_INR. simpl (INR (length [p])).
  assert (0 <= INR (length arr)) by apply pos_INR.
  assert (V : vsum (arr ++ [p]) = vadd (vsum arr) p). { unfold vsum. rewrite !sumf_app. apply vec3_eq; simpl; ring. }
  rewrite V, <- E. apply vec3_eq; simpl; field; lra.
Qed.
(** the scatter with one more point *)
Lemma outlier_scatter : forall arr arr' m p d, is_mean m arr -> Permutation (arr ++ [p]) arr' ->
  let n := INR (length arr) in
  Q (centered arr') d d = Q (centered arr) d d + n / (n + 1) * (dot (vsub p m) d * dot (vsub p m) d).
Proof.
  intros arr arr' m p d M P n. rewrite <- (Q_perm _ _ d d (centered_perm _ _ P)).
  pose proof (outlier_mean arr m p M) as M'. fold n in M'. set (m' := vadd m (vscale (/ (n + 1)) (vsub p m))) in *.
  assert (N0 : 0 <= n) by apply pos_INR.
  rewrite (scatter_mean _ d m' M'), ssd_app, (ssd_split d (dot d m') m arr M). fold n.
  assert (E : dot d m' = dot d m + / (n + 1) * dot (vsub p m) d) by (unfold m'; rewrite dot_add_r, dot_scale_r, (dot_comm d (vsub p m)); ring).
  unfold sum_sq_dist, sq_dist. cbn [sumf]. rewrite E.
  assert (EP : dot d p = dot (vsub p m) d + dot d m) by (rewrite dot_sub_l, (dot_comm p d), (dot_comm m d); ring).
  rewrite EP. field. lra.
Qed.

(** Wherever the point is, the misfit is no more than the second singular value without it, and
    the plane passes the point at a distance bounded by the same value: the farther the point,
    the closer its direction is to the plane. *)
Theorem C231_turned : forall svd1 svd2 arr arr' m p f f', lapack svd1 -> lapack svd2 -> is_mean m arr ->
  Permutation (arr ++ [p]) arr' ->
  PCAOrientation svd1 arr None None = Ok f -> PCAOrientation svd2 arr' None None = Ok f' ->
  let n := INR (length arr) in
  vz (p_s f') <= vy (p_s f) /\
  n * (dot (vsub p m) (p_normal f') * dot (vsub p m) (p_normal f')) <= (n + 1) * (vy (p_s f) * vy (p_s f)) /\
  n * nrm2 (vsub p m) <= (n + 1) * (vx (p_s f') * vx (p_s f')).
Proof.
  intros svd1 svd2 arr arr' m p f f' L1 L2 M P F F' n.
  destruct (fit_inv _ _ _ L1 F) as (N3 & u & c & S & _). destruct (fit_inv _ _ _ L2 F') as (_ & u' & c' & S' & _ & _ & _ & _ & _ & _ & D').
  assert (NP : 3 <= n) by (apply (le_INR 3) in N3; simpl in N3; unfold n; lra). clear c c'.
  pose proof (fun d => outlier_scatter arr arr' m p d M P) as OS. cbv zeta in OS. fold n in OS. set (q := vsub p m) in *.
  pose proof (svd_s01 _ _ _ _ S). pose proof (svd_s12 _ _ _ _ S). pose proof (svd_s2 _ _ _ _ S).
  pose proof (svd_s2 _ _ _ _ S') as P2.
  assert (B : vz (p_s f') * vz (p_s f') <= vy (p_s f) * vy (p_s f)).
  { destruct (perp2 q (r0 (p_axes f))) as (w & W & W1 & W0). destruct (unitize w W) as (d & D & k & K & DK).
    assert (D1 : dot q d = 0) by (rewrite DK, dot_scale_r, dot_comm, W1; ring).
    assert (D0 : dot (r0 (p_axes f)) d = 0) by (rewrite DK, dot_scale_r, dot_comm, W0; ring).
    eapply Rle_trans; [apply (Q_lower _ _ _ _ d S' D)|]. rewrite OS, D1, (Q_svd _ _ _ _ d d S), D0.
    pose proof (parseval _ d (svd_v _ _ _ _ S)) as PV. rewrite D, D0 in PV.
    assert (vz (p_s f) * vz (p_s f) <= vy (p_s f) * vy (p_s f)) by nra. nra. }
  split; [apply sq_le; [lra|exact B]|].
  assert (X : forall x, n / (n + 1) * x * (n + 1) = n * x) by (intros; field; lra).
  assert (PSD : forall d, 0 <= Q (centered arr) d d) by (intros; unfold Q; apply sumf_nonneg; intros; apply Rle_0_sqr).
  split.
  - destruct (Q_axes _ _ _ _ S') as (_ & _ & A2). rewrite <- (same_line_Q _ _ _ (normal_line f' D')), OS in A2.
    pose proof (PSD (p_normal f')). rewrite <- X. rewrite (Rmult_comm (n + 1)). apply Rmult_le_compat_r; lra.
  - rewrite <- X, (Rmult_comm (n + 1)). apply Rmult_le_compat_r; [lra|].
    destruct (Req_EM_T (nrm2 q) 0) as [E|E]. { rewrite E, Rmult_0_r. apply Rle_0_sqr. }
    assert (QN : q <> vzero) by (intros Z; apply E; rewrite Z; unfold nrm2; vunf; ring).
    destruct (unitize q QN) as (d & D & k & K & DK). eapply Rle_trans; [|apply (Q_upper _ _ _ _ d S' D)]. rewrite OS.
    assert (DQ : dot q d * dot q d = nrm2 q).
    { assert (nrm2 d = k * k * nrm2 q) by (rewrite DK; unfold nrm2; rewrite dot_scale_l, dot_scale_r; ring).
      rewrite DK, dot_scale_r. unfold nrm2 in *. replace (k * dot q q * (k * dot q q)) with (k * k * dot q q * dot q q) by ring. rewrite <- H2, D. ring. }
    rewrite DQ. pose proof (PSD d). lra.
Qed.

(** So one point above or below the centre stands any plane up. *)
Theorem C231_dip : forall svd1 svd2 arr arr' m h f f', lapack svd1 -> lapack svd2 -> is_mean m arr ->
  Permutation (arr ++ [vadd m (V3 0 0 h)]) arr' ->
  PCAOrientation svd1 arr None None = Ok f -> PCAOrientation svd2 arr' None None = Ok f' ->
  exists s d, strike_dip f' = Some (s, d) /\ 0 <= d <= 90 /\
  let n := INR (length arr) in n * (h * h) * (cos (radians d) * cos (radians d)) <= (n + 1) * (vy (p_s f) * vy (p_s f)).
Proof.
  intros svd1 svd2 arr arr' m h f f' L1 L2 M P F F'.
  destruct (C231_turned _ _ _ _ _ _ _ _ L1 L2 M P F F') as (_ & B & _).
  destruct (C11_strike_dip_range svd2 arr' ones f' L2 F') as (s & d & E & R & _). exists s, d. split; auto. split; auto. intro n. fold n in B.
  pose proof (C12_strike_dip_plane svd2 arr' ones f' L2 F' s d E) as PN.
  assert (DV : dot (vsub (vadd m (V3 0 0 h)) m) (p_normal f') = h * cos (radians d)).
  { rewrite <- PN, plane_normal_components. vunf. ring. }
  rewrite DV in B. replace (n * (h * h) * (cos (radians d) * cos (radians d))) with (n * (h * cos (radians d) * (h * cos (radians d)))) by ring. exact B.
Qed.
Theorem C231_vertical : forall arr m eps, (3 <= length arr)%nat -> is_mean m arr -> 0 < eps ->
  exists h0, forall h svd arr' f', h0 <= Rabs h -> lapack svd -> Permutation (arr ++ [vadd m (V3 0 0 h)]) arr' ->
  PCAOrientation svd arr' None None = Ok f' -> exists s d, strike_dip f' = Some (s, d) /\ 90 - eps < d <= 90.
Proof.
  intros arr m eps N3 M EP. destruct (fit_exists svd_ref arr lapack_ref N3) as [f F].
  set (e := Rmin eps 90). assert (E0 : 0 < e <= 90) by (unfold e; split; [apply Rmin_glb_lt; lra|apply Rmin_r]).
  assert (EE : e <= eps) by apply Rmin_l.
  assert (C0 : 0 < cos (radians (90 - e))).
  { pose proof PI_RGT_0 as PI0. assert (radians 0 <= radians (90 - e)) by (apply radians_le; lra). assert (radians (90 - e) < PI / 2) by (unfold radians; nra).
    rewrite radians_0 in *. apply cos_gt_0; lra. }
  set (c := cos (radians (90 - e))) in *. set (s1 := vy (p_s f)).
  assert (S0 : 0 <= s1). { destruct (fit_inv _ _ _ lapack_ref F) as (_ & u & ? & S & _). pose proof (svd_s12 _ _ _ _ S). pose proof (svd_s2 _ _ _ _ S). unfold s1. lra. }
  exists ((2 * s1 + 1) / c). intros h svd arr' f' H L P F'.
  destruct (C231_dip svd_ref svd arr arr' m h f f' lapack_ref L M P F F') as (s & d & E & R & B). cbv zeta in B. fold s1 in B.
  exists s, d. split; auto. split; [|lra]. apply Rnot_le_lt. intros LD.
  assert (CD : c <= cos (radians d)).
  { unfold c. pose proof PI_RGT_0. assert (radians 0 <= radians d) by (apply radians_le; lra). assert (radians (90 - e) <= radians 180) by (apply radians_le; lra).
    assert (radians d <= radians (90 - e)) by (apply radians_le; lra).
    rewrite radians_0, radians_180 in *. apply cos_decr_1; lra. }
  assert (NP : 3 <= INR (length arr)) by (apply (le_INR 3) in N3; simpl in N3; lra). set (n := INR (length arr)) in *.
  assert (HC : 2 * s1 + 1 <= Rabs h * cos (radians d)).
  { apply Rle_trans with (Rabs h * c). { apply Rmult_le_reg_r with (/ c); [now apply Rinv_0_lt_compat|].
      replace (Rabs h * c * / c) with (Rabs h) by (field; lra). exact H. }
    apply Rmult_le_compat_l; [apply Rabs_pos|exact CD]. }
  assert (SQ : (2 * s1 + 1) * (2 * s1 + 1) <= h * h * (cos (radians d) * cos (radians d))).
  { replace (h * h * (cos (radians d) * cos (radians d))) with (Rabs h * cos (radians d) * (Rabs h * cos (radians d))).
    - apply Rmult_le_compat; lra.
    - pose proof (Rsqr_abs h) as A. unfold Rsqr in A. rewrite A. ring. }
  assert (n * ((2 * s1 + 1) * (2 * s1 + 1)) <= (n + 1) * (s1 * s1)).
  { eapply Rle_trans; [apply Rmult_le_compat_l; [lra|exact SQ]|]. rewrite <- Rmult_assoc. exact B. }
  assert (0 <= n * (s1 * s1)) by (apply Rmult_le_pos; [lra|nra]). nra.
Qed.

(** The error reported along the first axis falls with the distance of the point, which it
    takes for precision. *)
Theorem C231_confident : forall svd1 svd2 st Z arr arr' m p f f', lapack svd1 -> lapack svd2 -> bounded st Z -> is_mean m arr ->
  Permutation (arr ++ [p]) arr' ->
  PCAOrientation svd1 arr None None = Ok f -> PCAOrientation svd2 arr' None None = Ok f' -> 0 < vy (p_s f) ->
  let n := INR (length arr) in let k := 2 * Z / sqrt (n - 1) in k <= 1 / 2 ->
  exists a b, fit_angular_errors st f' = Some (a, b) /\ 0 <= a < 90 /\
    tan (radians a) * (sqrt (n / (n + 1)) * norm (vsub p m)) <= vy (p_s f) * (1 + 2 * k).
Proof.
  intros svd1 svd2 st Z arr arr' m p f f' L1 L2 B M P F F' P1 n k K.
  destruct (C231_turned _ _ _ _ _ _ _ _ L1 L2 M P F F') as (B3 & _ & B1). fold n in B1.
  destruct (C230_more _ _ _ _ _ _ _ L1 L2 P F F') as (_ & Y & _).
  assert (EL : INR (1 * length arr') = n + 1) by (rewrite <- (Permutation_length P), app_length, Nat.mul_1_l, plus_INR; reflexivity).
  assert (R1 : Permutation (repeated 1 arr') arr') by (unfold repeated; cbn [repeat concat]; rewrite app_nil_r; apply Permutation_refl).
  pose proof (C210_rate svd2 svd2 st Z 1 arr' arr' f' f' L2 L2 B ltac:(lia) R1 F' F' ltac:(lra)) as R. cbv zeta in R. rewrite EL in R.
  replace (n + 1 - 2) with (n - 1) in R by ring. destruct (R K) as (a & b & E & A & _ & (_ & T) & _).
  exists a, b. split; auto. split; auto.
  destruct (fit_inv _ _ _ L1 F) as (N3 & _). assert (NP : 3 <= n) by (apply (le_INR 3) in N3; simpl in N3; unfold n; lra).
  destruct (fit_inv _ _ _ L2 F') as (_ & u & ? & S & _). pose proof (svd_s01 _ _ _ _ S). pose proof (svd_s2 _ _ _ _ S).
  assert (K0 : 0 <= k). { destruct (B 1 ltac:(lra)) as (z & _ & HZ). unfold k. apply Rmult_le_pos; [lra|]. left. apply Rinv_0_lt_compat, sqrt_lt_R0. lra. }
  set (s1 := vx (p_s f')) in *. set (s3 := vz (p_s f')) in *.
  assert (D : sqrt (n / (n + 1)) * norm (vsub p m) <= s1).
  { apply sq_le; [lra|]. assert (0 <= n / (n + 1)) by (apply Rmult_le_pos; [lra|left; apply Rinv_0_lt_compat; lra]).
    replace (sqrt (n / (n + 1)) * norm (vsub p m) * (sqrt (n / (n + 1)) * norm (vsub p m))) with
      (sqrt (n / (n + 1)) * sqrt (n / (n + 1)) * (norm (vsub p m) * norm (vsub p m))) by ring.
    rewrite sqrt_sqrt, norm_sqr by auto. apply Rmult_le_reg_l with (n + 1); [lra|].
    replace ((n + 1) * (n / (n + 1) * nrm2 (vsub p m))) with (n * nrm2 (vsub p m)) by (field; lra). exact B1. }
  assert (D0 : 0 <= sqrt (n / (n + 1)) * norm (vsub p m)) by (apply Rmult_le_pos; [apply sqrt_pos|apply norm_nonneg]).
  assert (SP : 0 < s1) by lra.
  assert (RN : 0 <= s3 / s1 * (1 + 2 * k)) by (apply Rmult_le_pos; [apply Rmult_le_pos; [lra|left; now apply Rinv_0_lt_compat]|lra]).
  change (2 * Z / sqrt (n - 1)) with k in T. set (g := sqrt (n / (n + 1)) * norm (vsub p m)) in *.
  apply Rle_trans with (s3 / s1 * (1 + 2 * k) * g); [apply Rmult_le_compat_r; auto|].
  apply Rle_trans with (s3 / s1 * (1 + 2 * k) * s1); [apply Rmult_le_compat_l; auto|].
  replace (s3 / s1 * (1 + 2 * k) * s1) with (s3 * (1 + 2 * k)) by (field; lra). apply Rmult_le_compat_r; lra.
Qed.

(** A flat outcrop and one point above its centre. *)
Example C231_ex : exists f f', PCAOrientation svd_ref (axis_data 3 2 0) None None = Ok f /\
  PCAOrientation svd_ref (axis_data 3 2 0 ++ [vadd vzero (V3 0 0 30)]) None None = Ok f' /\
  vz (p_s f) = 0 /\ is_mean vzero (axis_data 3 2 0) /\
  exists s d, strike_dip f' = Some (s, d) /\ cos (radians d) * cos (radians d) <= 1 / 90.
Proof.
  destruct example_coplanar_fit as (f & F & Z & _).
  destruct (fit_exists svd_ref (axis_data 3 2 0 ++ [vadd vzero (V3 0 0 30)]) lapack_ref) as [f' F']; [simpl; lia|].
  assert (M : is_mean vzero (axis_data 3 2 0)) by (split; [discriminate|]; unfold axis_data, vsum; apply vec3_eq; simpl; ring).
  exists f, f'. do 4 (split; auto).
  destruct (C231_dip _ _ _ _ _ 30 _ _ lapack_ref lapack_ref M (Permutation_refl _) F F') as (s & d & E & _ & B). cbv zeta in B.
  exists s, d. split; auto. rewrite (axis_singular _ 3 2 0 _ lapack_ref ltac:(lra) ltac:(lra) F) in B. cbn [vy] in B.
  replace (sqrt 2 * 2 * (sqrt 2 * 2)) with (sqrt 2 * sqrt 2 * 4) in B by ring. rewrite sqrt_sqrt in B by lra.
  change (length (axis_data 3 2 0)) with 6%nat in B. replace (INR 6) with 6 in B by (simpl; ring). lra.
Qed.

Print Assumptions C231_turned.
Print Assumptions C231_dip.
Print Assumptions C231_vertical.
Print Assumptions C231_confident.
