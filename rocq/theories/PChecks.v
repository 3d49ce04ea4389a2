(** C223: what the tests of reconstructed planes check. *)
From Coq Require Import Reals Lra Lia List Psatz Bool.
From Verif Require Import RVec Trig SpecPlane SpecEquiv MPca MAxes MSphere MRecon LSvd LPca LFit LAngles LFit2 LRecon LAxes LExamples PPca PAxes PRatio PRecon MChecks.
Import ListNotations.
Open Scope R_scope.

Lemma allclose_refl : forall x, allclose x x = true.
Proof.
  intros x. unfold allclose. destruct (Rle_dec _ _) as [_|N]; [reflexivity|]. exfalso. apply N.
  replace (x - x) with 0 by ring. rewrite Rabs_R0. pose proof (Rabs_pos x). lra.
Qed.
Lemma almost_refl : forall x, almost x x = true.
Proof.
  intros x. unfold almost. destruct (Rlt_dec _ _) as [_|N]; [reflexivity|]. exfalso. apply N.
  replace (x - x) with 0 by ring. rewrite Rabs_R0. lra.
Qed.
Lemma on_vec_refl : forall p v, (forall x, p x x = true) -> on_vec p v v = true.
Proof. intros p v H. unfold on_vec. now rewrite !H. Qed.

(** The first test passes exactly if the plane is not horizontal. *)
Theorem C223_rake : forall svd arr f, lapack svd -> PCAOrientation svd arr None None = Ok f ->
  let horizontal := vx (p_normal f) = 0 /\ vy (p_normal f) = 0 in
  (test_rake_angle svd arr = Ok tt <-> ~ horizontal) /\ (test_rake_angle svd arr = Raise AssertionError <-> horizontal).
Proof.
  intros svd arr f HL HF horizontal. unfold test_rake_angle. rewrite HF. cbn [rbind].
  destruct (C10_dip_dr svd arr ones f HL HF) as (A & B). fold horizontal in A, B.
  assert (DEC : horizontal \/ ~ horizontal).
  { unfold horizontal. destruct (Req_EM_T (vx (p_normal f)) 0); destruct (Req_EM_T (vy (p_normal f)) 0); tauto. }
  destruct DEC as [H|H].
  - rewrite (A H). cbn [obind]. split; split; auto; try discriminate. contradiction.
  - destruct (B H) as (d & D & U & _). rewrite D. cbn [obind].
    destruct (C16_rake svd arr ones f d HL HF D) as (r & R & _). unfold rake in R. rewrite D in R.
    assert (E : vangle (r0 (p_axes f)) d = vangle d (r0 (p_axes f))).
    { unfold vangle. now rewrite (Rmult_comm (norm (r0 (p_axes f)))), (dot_comm (r0 (p_axes f))). }
    rewrite E. destruct (vangle d (r0 (p_axes f))); [|discriminate R]. rewrite allclose_refl.
    split; split; auto; try discriminate. contradiction.
Qed.

(** The plane, the angles and the errors are always those put in: the first three
    comparisons of the second test pass for every fit, whatever the other two do. *)
Lemma checks_value : forall svd st arr f s d r a b, lapack svd -> PCAOrientation svd arr None None = Ok f ->
  strike_dip_rake f = Some (s, d, r) -> fit_angular_errors st f = Some (a, b) ->
  exists p, ReconstructedPlane s d r [a; b] 1 = Some p /\ r2 (rp_axes p) = p_normal f /\
  let fax := if Rlt_dec (vz (r2 (p_axes f))) 0 then mneg (p_axes f) else p_axes f in
  checks st f = Some [true; true; true; on_mat almost fax (rp_axes p);
        match covariance_noise f, rp_hyperbolic p with
        | Some c, Some [h0; h1; h2] =>
            match fdiv (vx c) (vz c), fdiv (vy c) (vz c), fdiv (vz c) (vz c) with
            | Some c0, Some c1, Some c2 => allclose c0 h0 && allclose c1 h1 && allclose c2 h2
            | _, _, _ => false
            end
        | _, _ => false
        end].
Proof.
  intros svd st arr f s d r a b HL HF S A.
  destruct (C39_plane_recovered svd arr ones f s d r [a; b] 1 HL HF S) as (p & P & N & N2). exists p. split; [exact P|]. split; [exact N2|]. intros fax.
  destruct (recon_value s d r [a; b] 1) as (p' & P' & V1 & V2 & V3 & V4 & _). rewrite P in P'. injection P' as <-.
  unfold checks. rewrite S. cbn [obind]. rewrite A. cbn [obind]. rewrite P. cbn [obind].
  unfold rp_strike_dip_rake, rp_angular_errors. rewrite V1, V2, V3, V4, N.
  rewrite on_vec_refl by apply allclose_refl. rewrite !allclose_refl, !almost_refl. reflexivity.
Qed.
Theorem C223_nominal : forall svd st arr f s d r a b, lapack svd -> PCAOrientation svd arr None None = Ok f ->
  strike_dip_rake f = Some (s, d, r) -> fit_angular_errors st f = Some (a, b) ->
  exists x y, checks st f = Some [true; true; true; x; y].
Proof. intros svd st arr f s d r a b HL HF S A. destruct (checks_value svd st arr f s d r a b HL HF S A) as (p & _ & _ & C). do 2 eexists. exact C. Qed.

Lemma on_vec_almost : forall u v, on_vec almost u v = true ->
  Rabs (vx v - vx u) < 15 / 10^7 /\ Rabs (vy v - vy u) < 15 / 10^7 /\ Rabs (vz v - vz u) < 15 / 10^7.
Proof.
  intros u v H. unfold on_vec, almost in H. rewrite !andb_true_iff in H.
  repeat destruct (Rlt_dec _ _) in H; intuition; discriminate.
Qed.
Lemma unit_entries : forall v, unit3 v -> Rabs (vx v) <= 1 /\ Rabs (vy v) <= 1 /\ Rabs (vz v) <= 1.
Proof. intros [x y z] U. unfold unit3, nrm2, dot in U. cbn [vx vy vz] in *. repeat split; apply Rabs_le; nra. Qed.
Lemma mul_small : forall x y e, Rabs x <= e -> Rabs y <= 1 -> - e <= x * y <= e.
Proof.
  intros x y e X Y. apply Rabs_le_inv. rewrite Rabs_mult. pose proof (Rabs_pos x). pose proof (Rabs_pos y). nra.
Qed.
Lemma dot_small : forall u v w e, unit3 w -> Rabs (vx v - vx u) < e -> Rabs (vy v - vy u) < e -> Rabs (vz v - vz u) < e ->
  Rabs (dot v w - dot u w) <= 3 * e.
Proof.
  intros u v w e W X Y Z. destruct (unit_entries w W) as (WX & WY & WZ).
  pose proof (mul_small _ _ e (Rlt_le _ _ X) WX). pose proof (mul_small _ _ e (Rlt_le _ _ Y) WY). pose proof (mul_small _ _ e (Rlt_le _ _ Z) WZ).
  replace (dot v w - dot u w) with ((vx v - vx u) * vx w + (vy v - vy u) * vy w + (vz v - vz u) * vz w) by (unfold dot; ring).
  apply Rabs_le. lra.
Qed.

(** The fourth comparison, of the axes, fails if the decomposition gives its third axis
    upwards, unless the rake is within a thousandth of a degree of 90; *)
Theorem C223_axes_up : forall svd st arr f s d r a b x y, lapack svd -> PCAOrientation svd arr None None = Ok f ->
  strike_dip_rake f = Some (s, d, r) -> fit_angular_errors st f = Some (a, b) -> checks st f = Some [true; true; true; x; y] ->
  0 <= vz (r2 (p_axes f)) -> 1 / 10^5 <= Rabs (cos (radians r)) -> x = false.
Proof.
  intros svd st arr f s d r a b x y HL HF S A C Z R.
  destruct (checks_value svd st arr f s d r a b HL HF S A) as (p & P & N2 & C'). rewrite C in C'. injection C' as -> _.
  destruct (Rlt_dec _ 0) as [h|_]; [lra|]. destruct (on_mat almost (p_axes f) (rp_axes p)) eqn:M; [|reflexivity]. exfalso.
  unfold on_mat in M. rewrite !andb_true_iff in M. destruct M as ((M0 & _) & _). apply on_vec_almost in M0. destruct M0 as (X & Y & W).
  destruct (fit_axes_in_frame svd arr ones f s d r HL HF S) as (RR & t & Et & T1 & A0 & _).
  destruct (C11_strike_dip_range svd arr ones f HL HF) as (s' & d' & ES & Dr & _).
  assert (SD : s' = s /\ d' = d). { unfold strike_dip_rake in S. rewrite ES in S. destruct (rake f); [injection S; auto|discriminate]. } destruct SD as (-> & ->).
  destruct (recon_value s d r [a; b] 1) as (p' & P' & _ & _ & _ & _ & V5 & V6 & _). rewrite P in P'. injection P' as <-.
  destruct (Rlt_dec 90 d) as [h|_] in V5; [lra|].
  assert (NZ : 0 <= vz (rp_normal p)).
  { rewrite V5, plane_normal_components. cbn [vz]. pose proof PI_RGT_0. apply cos_ge_0; unfold radians; nra. }
  cbv zeta in V6. destruct (Rlt_dec (vz _) 0) as [h|_] in V6; [lra|]. destruct (Rlt_dec r 0) as [h|_] in V6; [lra|].
  destruct (rake_dir_frame s d r) as (_ & _ & CR). rewrite V5, CR in V6.
  destruct (frame s d) as ((FA & FB & _ & FAB & _ & _) & _). cbn [r0 r1 r2] in FA, FB, FAB.
  assert (UU : unit3 (up_dip s d)) by exact FB.
  pose proof (dot_small _ _ _ _ UU X Y W) as K.
  assert (K1 : dot (r0 (rp_axes p)) (up_dip s d) = - cos (radians r)).
  { rewrite V6. cbn [r0]. rewrite dot_neg_l, dot_add_l, !dot_scale_l, FAB, FB. ring. }
  assert (K2 : dot (r0 (p_axes f)) (up_dip s d) = cos (radians r)).
  { rewrite A0. rewrite dot_add_l, !dot_scale_l, FAB, FB. ring. }
  rewrite K1, K2 in K. replace (- cos (radians r) - cos (radians r)) with (-2 * cos (radians r)) in K by ring.
  rewrite Rabs_mult in K. rewrite (Rabs_left (-2)) in K by lra. lra.
Qed.

(** it fails if the axes, turned upwards, are right handed; *)
Theorem C223_axes_right : forall svd st arr f s d r a b x y, lapack svd -> PCAOrientation svd arr None None = Ok f ->
  strike_dip_rake f = Some (s, d, r) -> fit_angular_errors st f = Some (a, b) -> checks st f = Some [true; true; true; x; y] ->
  0 < mdet (if Rlt_dec (vz (r2 (p_axes f))) 0 then mneg (p_axes f) else p_axes f) -> x = false.
Proof.
  intros svd st arr f s d r a b x y HL HF S A C DET.
  destruct (checks_value svd st arr f s d r a b HL HF S A) as (p & P & N2 & C'). rewrite C in C'. injection C' as -> _.
  set (fax := if Rlt_dec _ 0 then mneg (p_axes f) else p_axes f) in *.
  assert (OF : orthonormal fax).
  { destruct (fit_inv _ _ _ HL HF) as (_ & u & m & SV & _). pose proof (svd_v _ _ _ _ SV) as O. unfold fax.
    destruct (Rlt_dec _ 0) as [h|h]; auto. unfold orthonormal in *. cbn [mneg r0 r1 r2]. rewrite !dot_neg_l, !dot_neg_r. intuition lra. }
  clearbody fax. destruct (on_mat almost fax (rp_axes p)) eqn:M; [|reflexivity]. exfalso.
  unfold on_mat in M. rewrite !andb_true_iff in M. destruct M as ((M0 & M1) & M2). apply on_vec_almost in M0, M1, M2.
  destruct (C11_strike_dip_range svd arr ones f HL HF) as (s' & d' & ES & Dr & _).
  assert (SD : d' = d). { unfold strike_dip_rake in S. rewrite ES in S. destruct (rake f); [injection S; auto|discriminate]. } subst d'.
  destruct (C92_left_handed s d r [a; b] 1 ltac:(lra)) as (p' & P' & L & _). rewrite P in P'. injection P' as <-.
  destruct (C38_reconstructed_axes s d r [a; b] 1) as (p' & P' & _ & OP & _). rewrite P in P'. injection P' as <-.
  pose proof (orthonormal_det fax OF) as D1.
  set (g := rp_axes p) in *. clearbody g. clear P N2.
  assert (D : mdet fax = 1).
  { assert (X : (mdet fax - 1) * (mdet fax + 1) = 0) by lra. apply Rmult_integral in X. destruct X; lra. }
  assert (UE : forall m, orthonormal m -> unit3 (r0 m) /\ unit3 (r1 m) /\ unit3 (r2 m)).
  { intros m (Q0 & Q1 & Q2 & _). auto. }
  destruct (UE fax OF) as (F0 & F1 & F2). destruct (UE g OP) as (G0 & G1 & G2).
  apply unit_entries in F0, F1, F2, G0, G1, G2.
  destruct fax as [[x0 y0 z0] [x1 y1 z1] [x2 y2 z2]]. destruct g as [[X0 Y0 Z0] [X1 Y1 Z1] [X2 Y2 Z2]].
  cbn [r0 r1 r2 vx vy vz] in *. unfold mdet, dot, cross in D, L. cbn [r0 r1 r2 vx vy vz] in D, L.
  set (e := 15 / 10^7) in *. assert (E : 0 < e < 1 / 100) by (unfold e; lra). clearbody e.
  (* a product of three entries changes by at most 3 e *)
  assert (T : forall a b c A B C, Rabs a <= 1 -> Rabs b <= 1 -> Rabs A <= 1 -> Rabs c <= 1 -> Rabs B <= 1 -> Rabs C <= 1 ->
    Rabs (A - a) < e -> Rabs (B - b) < e -> Rabs (C - c) < e -> - (3 * e) <= A * B * C - a * b * c <= 3 * e).
  { clear. intros a b c A B C H1 H2 H3 H4 H5 H6 HA HB HC.
    assert (Q : forall p q, Rabs p <= 1 -> Rabs q <= 1 -> Rabs (p * q) <= 1).
    { intros p q Hp Hq. rewrite Rabs_mult. pose proof (Rabs_pos p). pose proof (Rabs_pos q). nra. }
    pose proof (mul_small _ _ e (Rlt_le _ _ HA) (Q B C H5 H6)). pose proof (mul_small _ _ e (Rlt_le _ _ HB) (Q a C H1 H6)).
    pose proof (mul_small _ _ e (Rlt_le _ _ HC) (Q a b H1 H2)).
    replace (A * B * C - a * b * c) with ((A - a) * (B * C) + (B - b) * (a * C) + (C - c) * (a * b)) by ring. lra. }
  destruct F0 as (F00 & F01 & F02), F1 as (F10 & F11 & F12), F2 as (F20 & F21 & F22).
  destruct G0 as (G00 & G01 & G02), G1 as (G10 & G11 & G12), G2 as (G20 & G21 & G22).
  destruct M0 as (M00 & M01 & M02), M1 as (M10 & M11 & M12), M2 as (M20 & M21 & M22).
  pose proof (T x0 y1 z2 X0 Y1 Z2 ltac:(auto) ltac:(auto) ltac:(auto) ltac:(auto) ltac:(auto) ltac:(auto) ltac:(auto) ltac:(auto) ltac:(auto)).
  pose proof (T x0 z1 y2 X0 Z1 Y2 ltac:(auto) ltac:(auto) ltac:(auto) ltac:(auto) ltac:(auto) ltac:(auto) ltac:(auto) ltac:(auto) ltac:(auto)).
  pose proof (T y0 z1 x2 Y0 Z1 X2 ltac:(auto) ltac:(auto) ltac:(auto) ltac:(auto) ltac:(auto) ltac:(auto) ltac:(auto) ltac:(auto) ltac:(auto)).
  pose proof (T y0 x1 z2 Y0 X1 Z2 ltac:(auto) ltac:(auto) ltac:(auto) ltac:(auto) ltac:(auto) ltac:(auto) ltac:(auto) ltac:(auto) ltac:(auto)).
  pose proof (T z0 x1 y2 Z0 X1 Y2 ltac:(auto) ltac:(auto) ltac:(auto) ltac:(auto) ltac:(auto) ltac:(auto) ltac:(auto) ltac:(auto) ltac:(auto)).
  pose proof (T z0 y1 x2 Z0 Y1 X2 ltac:(auto) ltac:(auto) ltac:(auto) ltac:(auto) ltac:(auto) ltac:(auto) ltac:(auto) ltac:(auto) ltac:(auto)).
  lra.
Qed.

(** it passes for a third axis downwards, a first axis not against the strike and axes that
    are right handed before turning. *)
Theorem C223_axes_pass : forall svd st arr f s d r a b x y, lapack svd -> PCAOrientation svd arr None None = Ok f ->
  strike_dip_rake f = Some (s, d, r) -> fit_angular_errors st f = Some (a, b) -> checks st f = Some [true; true; true; x; y] ->
  vz (r2 (p_axes f)) < 0 -> 0 <= dot (r0 (p_axes f)) (azimuth_vec s) -> 0 < mdet (p_axes f) -> x = true.
Proof.
  intros svd st arr f s d r a b x y HL HF S A C Z AZ DET.
  destruct (checks_value svd st arr f s d r a b HL HF S A) as (p & P & N2 & C'). rewrite C in C'. injection C' as -> _.
  destruct (Rlt_dec _ 0) as [_|h]; [|lra].
  destruct (fit_axes_in_frame svd arr ones f s d r HL HF S) as (RR & t & Et & T1 & A0 & A1).
  destruct (C11_strike_dip_range svd arr ones f HL HF) as (s' & d' & ES & Dr & _).
  assert (SD : s' = s /\ d' = d). { unfold strike_dip_rake in S. rewrite ES in S. destruct (rake f); [injection S; auto|discriminate]. } destruct SD as (-> & ->).
  destruct (recon_value s d r [a; b] 1) as (p' & P' & _ & _ & _ & _ & V5 & V6 & _). rewrite P in P'. injection P' as <-.
  destruct (Rlt_dec 90 d) as [h|_] in V5; [lra|].
  assert (NZ : 0 <= vz (rp_normal p)).
  { rewrite V5, plane_normal_components. cbn [vz]. pose proof PI_RGT_0. apply cos_ge_0; unfold radians; nra. }
  cbv zeta in V6. destruct (Rlt_dec (vz _) 0) as [h|_] in V6; [lra|]. destruct (Rlt_dec r 0) as [h|_] in V6; [lra|].
  destruct (rake_dir_frame s d r) as (_ & _ & CR). 
  assert (SR : sin (radians r) = t).
  { assert (0 <= sin (radians r)) by (pose proof PI_RGT_0; apply sin_ge_0; unfold radians; nra). rewrite <- Et in AZ.
    pose proof (sincos1 (radians r)). nra. }
  destruct (fit_inv _ _ _ HL HF) as (_ & u & m & SV & _). pose proof (svd_v _ _ _ _ SV) as O.
  destruct (weighted_inv svd arr ones f HL HF) as (_ & _ & u1 & m1 & _ & _ & _ & _ & _ & _ & _ & _ & DD). apply normal_line in DD.
  destruct (C09_normal svd arr ones f HL HF) as (_ & UP & _).
  rewrite V6 in N2. cbn [r2] in N2. rewrite V5 in N2.
  assert (VN : forall v, vneg (vneg v) = v) by (intros v; apply vec3_eq; simpl; ring).
  assert (E2 : r2 (p_axes f) = vneg (plane_normal s d)).
  { rewrite N2. destruct DD as [DD|DD]; [rewrite DD in UP; lra|]. now rewrite DD, VN. }
  assert (E0 : r0 (p_axes f) = vneg (cross (plane_normal s d) (rake_dir s d r))) by (rewrite CR, VN, SR; exact A0).
  assert (E1 : r1 (p_axes f) = vneg (rake_dir s d r)).
  { unfold rake_dir. rewrite SR. destruct A1 as [A1|A1]; [|exact A1]. exfalso. rewrite <- SR in A1. fold (rake_dir s d r) in A1.
    unfold mdet in DET. rewrite E0, E2, A1 in DET. set (n := plane_normal s d) in *. set (q := rake_dir s d r) in *.
    replace (dot (vneg (cross n q)) (cross q (vneg n))) with (- nrm2 (cross n q)) in DET by (unfold nrm2; vunf; ring).
    pose proof (nrm2_nonneg (cross n q)). lra. }
  assert (ALL : mneg (p_axes f) = rp_axes p).
  { rewrite V6, V5. unfold mneg. rewrite E0, E1, E2, !VN. reflexivity. }
  rewrite ALL. unfold on_mat. rewrite !on_vec_refl by apply almost_refl. reflexivity.
Qed.

(** The fifth comparison, of the cubes of the singular values with cotangents of half the
    errors, fails for every fit whose largest singular value is at least twice its
    smallest: with it the test, for everything like a plane. *)
Lemma half_cot : forall y x, 0 < y -> 0 <= x -> let e := atan2 y x / 2 in
  0 < sin e /\ cos e / sin e = (x + sqrt (x * x + y * y)) / y.
Proof.
  intros y x Y X e. assert (B : 0 < atan2 y x <= PI / 2).
  { rewrite atan2_axis by auto. pose proof (atan_bound (x / y)). assert (0 <= atan (x / y)).
    { rewrite <- atan_0. assert (0 <= x / y) by (apply Rmult_le_pos; [auto|left; apply Rinv_0_lt_compat; auto]).
      destruct (Req_EM_T (x / y) 0) as [->|]; [lra|]. left. apply atan_increasing. lra. } lra. }
  pose proof PI_RGT_0. assert (S : 0 < sin e) by (apply sin_gt_0; unfold e; lra). assert (C : 0 < cos e) by (apply cos_gt_0; unfold e; lra).
  split; [exact S|]. assert (NZ : x <> 0 \/ y <> 0) by (right; lra).
  pose proof (cos_atan2 y x NZ) as CA. pose proof (sin_atan2 y x NZ) as SA. replace (atan2 y x) with (2 * e) in CA, SA by (unfold e; field).
  rewrite cos_2a_cos in CA. rewrite sin_2a in SA. set (h := sqrt (x * x + y * y)) in *.
  assert (H0 : 0 < h) by (apply sqrt_lt_R0; nra).
  assert (Q1 : (2 * cos e * cos e - 1) * h = x) by (rewrite CA; field; lra).
  assert (Q2 : (2 * sin e * cos e) * h = y) by (rewrite SA; field; lra).
  assert (N1 : x + h = 2 * cos e * cos e * h) by lra. rewrite N1, <- Q2. field. lra.
Qed.
Lemma close_far : forall c h x, 2 <= x -> 4 * x <= c -> 0 <= h <= 212 / 100 * x -> allclose c h = false.
Proof.
  intros c h x X C H. unfold allclose. destruct (Rle_dec _ _) as [L|_]; [|reflexivity]. exfalso.
  rewrite (Rabs_right h), Rabs_right in L by lra. lra.
Qed.
Theorem C223_fails : forall svd st arr f z, lapack svd -> PCAOrientation svd arr None None = Ok f ->
  f_ppf st (95/100) 2 (INR (length arr) - 2) = Some z -> 0 <= z -> 2 * vz (p_s f) <= vx (p_s f) ->
  (forall l, checks st f = Some l -> exists x, l = [true; true; true; x; false]) /\
  test_reconstructed_plane svd st arr = Raise AssertionError.
Proof.
  intros svd st arr f z HL HF HZ Z0 W.
  assert (MAIN : forall l, checks st f = Some l -> exists x, l = [true; true; true; x; false]).
  2: { split; [exact MAIN|]. unfold test_reconstructed_plane. rewrite HF. cbn [rbind]. destruct (checks st f) as [l|]; [|reflexivity].
       destruct (MAIN l eq_refl) as (x & ->). cbn [forallb]. now destruct x. }
  intros l CH.
  destruct (strike_dip_rake f) as [[[s d] r]|] eqn:S. 2: { unfold checks in CH. rewrite S in CH. discriminate CH. }
  destruct (fit_angular_errors st f) as [[a b]|] eqn:A. 2: { unfold checks in CH. rewrite S, A in CH. discriminate CH. }
  destruct (checks_value svd st arr f s d r a b HL HF S A) as (p & P & _ & C). rewrite C in CH. injection CH as <-. clear C.
  eexists. do 4 f_equal. f_equal.
  rewrite (covariance_noise_value _ _ _ HL HF). cbn [vscale vx vy vz].
  destruct (errors_value _ _ _ _ _ HL HF HZ Z0) as (e & E & N3 & V). set (n := INR (length arr)) in *. set (k := 2 * z / sqrt (n - 2)) in *. cbv zeta in V.
  destruct (eigenvalues_value _ _ _ _ HL HF E) as (E0 & E1 & E2). fold n in E0, E1, E2.
  destruct (fit_inv _ _ _ HL HF) as (_ & u & m & SV & _).
  pose proof (svd_s01 _ _ _ _ SV) as O1. pose proof (svd_s12 _ _ _ _ SV) as O2. pose proof (svd_s2 _ _ _ _ SV) as O3.
  pose proof (k_nonneg z n Z0 N3) as K0. fold k in K0.
  destruct (recon_value s d r [a; b] 1) as (p' & P' & _ & _ & _ & _ & _ & _ & HY). rewrite P in P'. injection P' as <-.
  rewrite A in V. injection V as -> ->.
  set (s0 := vx (p_s f)) in *. set (s1 := vy (p_s f)) in *. set (s2 := vz (p_s f)) in *.
  destruct (Req_EM_T s2 0) as [Z|NZ].
  { unfold fdiv. destruct (Req_EM_T (4 / n * (s2 * s2 * s2)) 0) as [_|N]; [|exfalso; apply N; rewrite Z; ring]. 
    destruct (rp_hyperbolic p) as [[|? [|? [|? [|]]]]|]; reflexivity. }
  assert (P2 : 0 < s2) by lra. clear O3 NZ.
  unfold fdiv. destruct (Req_EM_T (4 / n * (s2 * s2 * s2)) 0) as [N|NZ].
  { exfalso. assert (0 < 4 / n * (s2 * s2 * s2)); [|lra]. apply Rmult_lt_0_compat; [apply Rdiv_lt_0_compat; lra|]. apply Rmult_lt_0_compat; nra. }
  cbn [map rev app sequence] in HY. rewrite !radians_degrees in HY.
  set (H2 := vz e + k * sqrt (vz e) * sqrt (vz e)) in *. set (H1 := Rabs (sqrt (vy e) * sqrt (vy e) - k * sqrt (vz e) * sqrt (vy e))) in *.
  assert (X : forall x, 0 <= x -> sqrt (x * x / (n - 1)) = x / sqrt (n - 1)).
  { intros x Hx. rewrite sqrt_div_alt by lra. rewrite sqrt_square; auto. }
  assert (PM : 0 < sqrt (n - 1)) by (apply sqrt_lt_R0; lra). set (w := sqrt (n - 1)) in *.
  assert (WW : w * w = n - 1) by (apply sqrt_sqrt; lra).
  assert (EH2 : H2 = (1 + k) * (s2 / w) * (s2 / w)).
  { unfold H2. rewrite E2. rewrite X by lra. replace (s2 * s2 / (n - 1)) with (s2 / w * (s2 / w)) by (rewrite <- WW; field; lra). ring. }
  set (q2 := s2 / w) in *. set (q1 := s1 / w).
  assert (Q2 : 0 < q2) by (apply Rdiv_lt_0_compat; lra).
  assert (Q1 : q2 <= q1) by (apply Rmult_le_compat_r; [left; apply Rinv_0_lt_compat; auto|lra]).
  assert (BH1 : 0 <= H1 <= (1 + k) * q1 * q1).
  { split; [apply Rabs_pos|]. unfold H1. rewrite E1, E2, !X by lra. fold q1 q2. apply Rabs_le.
    assert (k * q2 * q1 <= k * q1 * q1) by (apply Rmult_le_compat_r; [lra|apply Rmult_le_compat_l; lra]).
    assert (0 <= k * q2 * q1) by (apply Rmult_le_pos; [apply Rmult_le_pos|]; lra).
    assert (0 <= q1 * q1) by (apply Rmult_le_pos; lra). lra. }
  assert (H2P : 0 < H2) by (rewrite EH2; apply Rmult_lt_0_compat; [apply Rmult_lt_0_compat; lra|lra]).
  clearbody H1 H2. 
  destruct (half_cot (sqrt H2) (sqrt H1) (sqrt_lt_R0 _ H2P) (sqrt_pos _)) as (SP & HC). cbv zeta in SP, HC.
  set (t := atan2 (sqrt H2) (sqrt H1) / 2) in *. unfold over_tan at 1 in HY. unfold fdiv at 1 in HY.
  destruct (Req_EM_T (sin t) 0) as [N|_]; [lra|]. rewrite Rmult_1_l, HC in HY.
  destruct (over_tan 1 _) as [h1|]; cbn [option_map app] in HY; rewrite HY; [|reflexivity].
  rewrite (close_far _ _ (s0 / s2)); [reflexivity| | |].
  - apply Rmult_le_reg_r with s2; [auto|]. replace (s0 / s2 * s2) with s0 by (field; lra). lra.
  - replace (4 / n * (s0 * s0 * s0) / (4 / n * (s2 * s2 * s2))) with (s0 / s2 * (s0 / s2) * (s0 / s2)) by (field; lra).
    assert (2 <= s0 / s2). { apply Rmult_le_reg_r with s2; [auto|]. replace (s0 / s2 * s2) with s0 by (field; lra). lra. }
    set (x := s0 / s2) in *. clearbody x. nra.
  - set (x := s0 / s2). assert (X2 : 2 <= x). { apply Rmult_le_reg_r with s2; [auto|]. unfold x. replace (s0 / s2 * s2) with s0 by (field; lra). lra. }
    assert (R2 : 0 < sqrt H2) by (now apply sqrt_lt_R0).
    assert (LE : H1 <= x * x * H2).
    { destruct BH1 as (_ & BH1). eapply Rle_trans; [exact BH1|]. rewrite EH2.
      assert (q1 <= x * q2). { unfold q1, q2, x. replace (s0 / s2 * (s2 / w)) with (s0 / w) by (field; lra). apply Rmult_le_compat_r; [left; apply Rinv_0_lt_compat; auto|lra]. }
      replace (x * x * ((1 + k) * q2 * q2)) with ((1 + k) * ((x * q2) * (x * q2))) by ring. rewrite Rmult_assoc. apply Rmult_le_compat_l; [lra|]. apply Rmult_le_compat; lra. }
    assert (L1 : sqrt H1 <= x * sqrt H2).
    { rewrite <- (sqrt_square x) by lra. rewrite <- sqrt_mult_alt by nra. apply sqrt_le_1_alt. exact LE. }
    assert (L2 : sqrt (sqrt H1 * sqrt H1 + sqrt H2 * sqrt H2) <= 112 / 100 * x * sqrt H2).
    { rewrite !sqrt_sqrt by lra. rewrite <- (sqrt_square (112 / 100 * x)) by lra. rewrite <- sqrt_mult_alt by nra. apply sqrt_le_1_alt.
      assert (1 * H2 <= (2544 / 10000) * (x * x) * H2) by (apply Rmult_le_compat_r; nra). nra. }
    split.
    + apply Rmult_le_pos; [|left; apply Rinv_0_lt_compat; auto]. pose proof (sqrt_pos H1). pose proof (sqrt_pos (sqrt H1 * sqrt H1 + sqrt H2 * sqrt H2)). lra.
    + apply Rmult_le_reg_r with (sqrt H2); [auto|]. unfold Rdiv at 1. rewrite Rmult_assoc, Rinv_l by lra. lra.
Qed.

(** examples: the oblique data of C40, and the same with two axes turned over *)
Definition turn2 (p : vec3) : vec3 := V3 (- vx p) (vy p) (- vz p).
Definition obl_axes2 : mat3 := M3 (V3 (1/3) (2/3) (2/3)) (V3 (2/3) (1/3) (-2/3)) (V3 (-2/3) (2/3) (-1/3)).
Lemma obl_svd2 : is_svd obl_data (map turn2 obl_U) obl_s obl_axes2.
Proof.
  assert (P : 0 < sqrt 2) by (apply sqrt_lt_R0; lra).
  assert (S2 : / sqrt 2 * / sqrt 2 = / 2).
  { rewrite <- Rinv_mult. f_equal. apply sqrt_sqrt; lra. }
  assert (K : forall x, / sqrt 2 * (sqrt 2 * x) = x) by (intros; field; lra).
  constructor; try (unfold obl_U; simpl; try lra).
  - unfold obl_data, axis_data, obl_U. cbn [map].
    repeat (apply f_equal2; [unfold vmul, vm, obl_axes, obl_axes2, obl_s, turn2, vadd, vscale; apply vec3_eq; simpl; field; lra|]).
    reflexivity.
  - unfold orthonormal, obl_axes2, dot; simpl. repeat split; lra.
Qed.
Definition obl_routine2 : svd_fn := svd_override obl_data (map turn2 obl_U, obl_s, obl_axes2) svd_ref.
Lemma obl_lapack2 : lapack obl_routine2.
Proof. apply svd_override_ok; [exact lapack_ref | exact obl_svd2]. Qed.
Lemma obl_both : forall u v, let svd := svd_override obl_data (u, obl_s, v) svd_ref in lapack svd ->
  exists f, PCAOrientation svd obl_data None None = Ok f /\ p_axes f = v /\ p_s f = obl_s.
Proof.
  intros u v svd HL. destruct (fit_exists svd obl_data HL) as [f F]. { simpl; lia. }
  exists f. split; auto. unfold PCAOrientation, run_svd in F. rewrite obl_centered in F.
  change (length obl_data <? 3)%nat with false in F. rewrite has_zero_ones, vdiv_ones in F.
  unfold svd, svd_override in F.
  destruct (list_eq_dec vec3_eq_dec obl_data obl_data) as [_|h]; [|congruence].
  simpl in F. injection F as <-. split; [reflexivity|]. cbn [p_s]. unfold obl_s. apply vec3_eq; simpl; ring.
Qed.
(** its strike, dip and rake *)
Lemma obl_angles : forall svd f, lapack svd -> PCAOrientation svd obl_data None None = Ok f -> p_normal f = V3 (2/3) (-2/3) (1/3) ->
  exists s d r, strike_dip_rake f = Some (s, d, r) /\ cos (radians r) = dot (r0 (p_axes f)) (up_dip s d) /\
    cos (radians d) = 1/3 /\ 0 < sin (radians d) /\ sin (radians d) * cos (radians s) = 2/3 /\ sin (radians d) * sin (radians s) = 2/3.
Proof.
  intros svd f HL F NN. assert (F' : PCAOrientation svd obl_data (Some ones) None = Ok f) by exact F.
  destruct (C11_strike_dip_range _ _ _ _ HL F') as (s & d & E & Hd & Hs).
  pose proof (C12_strike_dip_plane _ _ _ _ HL F' s d E) as PN.
  destruct (C10_dip_dr _ _ _ _ HL F') as [_ B]. rewrite NN in B.
  destruct B as (dd & Ed & _). { simpl. lra. }
  destruct (C16_rake _ _ _ _ _ HL F' Ed) as (r & Er & _).
  assert (SDR : strike_dip_rake f = Some (s, d, r)) by (unfold strike_dip_rake; now rewrite E, Er).
  exists s, d, r. split; [exact SDR|].
  destruct (fit_axes_in_frame _ _ _ _ _ _ _ HL F' SDR) as (_ & x & X & _ & Y & _).
  rewrite NN, plane_normal_components in PN. injection PN as P1 P2 P3.
  assert (S0 : 0 <= sin (radians d)).
  { apply sin_ge_0; [rewrite <- radians_0 | rewrite <- radians_180]; apply radians_le; lra. }
  split. { rewrite Y. destruct (frame s d) as ((_ & FB & _ & AB & _) & _). cbn [r0 r1 r2] in FB, AB. rewrite dot_add_l, !dot_scale_l, AB, FB. ring. }
  split; [exact P3|]. split; [|split; lra]. destruct S0 as [S0|S0]; [exact S0|]. rewrite <- S0 in P1. lra.
Qed.
Example C223_ex : exists f s d r a b, PCAOrientation obl_routine obl_data None None = Ok f /\ strike_dip_rake f = Some (s, d, r) /\
  fit_angular_errors (const_stats 1) f = Some (a, b) /\ 0 <= vz (r2 (p_axes f)) /\ 1 / 10^5 <= Rabs (cos (radians r)) /\
  0 < mdet (p_axes f) /\ 2 * vz (p_s f) <= vx (p_s f) /\
  test_reconstructed_plane obl_routine (const_stats 1) obl_data = Raise AssertionError.
Proof.
  destruct (obl_both obl_U obl_axes obl_lapack) as (f & F & AX & PS). fold obl_routine in F.
  assert (NN : p_normal f = V3 (2/3) (-2/3) (1/3)).
  { destruct (weighted_inv obl_routine obl_data ones f obl_lapack F) as (_ & _ & u & t & _ & _ & _ & _ & _ & _ & _ & _ & (X & _)).
    unfold p_normal. rewrite X, AX. unfold derived_normal; simpl. destruct (Rlt_dec (1/3) 0); [lra | reflexivity]. }
  destruct (obl_angles _ f obl_lapack F NN) as (s & d & r & S & CR & CD & SD & Q1 & Q2).
  destruct (C28_fit _ _ f (const_stats 1) 1 obl_lapack F eq_refl ltac:(lra)) as (a & b & A & _).
  exists f, s, d, r, a, b. do 3 (split; [assumption|]).
  assert (W : 2 * vz (p_s f) <= vx (p_s f)). { rewrite PS. unfold obl_s. cbn [vx vz]. pose proof (sqrt_pos 2). lra. }
  rewrite AX. split; [simpl; lra|]. split.
  { rewrite CR, AX, up_dip_components, CD. unfold obl_axes, dot. cbn [r0 vx vy vz].
    replace (-1 / 3 * - (1 / 3 * cos (radians s)) + -2 / 3 * (1 / 3 * sin (radians s)) + -2 / 3 * sin (radians d)) with
      (1 / 9 * (cos (radians s) - 2 * sin (radians s) - 6 * sin (radians d))) by field.
    assert (cos (radians s) = sin (radians s)) by (apply Rmult_eq_reg_l with (sin (radians d)); lra).
    pose proof (sincos1 (radians d)). assert (8 / 10 <= sin (radians d)) by nra.
    assert (0 < sin (radians s)) by nra. rewrite H, Rabs_left by lra. lra. }
  split; [unfold mdet, obl_axes, dot, cross; cbn [r0 r1 r2 vx vy vz]; lra|].
  split; [exact W|]. exact (proj2 (C223_fails _ (const_stats 1) _ f 1 obl_lapack F eq_refl ltac:(lra) W)).
Qed.
Example C223_axes_pass_ex : exists f s d r a b y, PCAOrientation obl_routine2 obl_data None None = Ok f /\ strike_dip_rake f = Some (s, d, r) /\
  fit_angular_errors (const_stats 1) f = Some (a, b) /\ checks (const_stats 1) f = Some [true; true; true; true; y].
Proof.
  destruct (obl_both _ obl_axes2 obl_lapack2) as (f & F & AX & PS). fold obl_routine2 in F.
  assert (NN : p_normal f = V3 (2/3) (-2/3) (1/3)).
  { destruct (weighted_inv obl_routine2 obl_data ones f obl_lapack2 F) as (_ & _ & u & t & _ & _ & _ & _ & _ & _ & _ & _ & (X & _)).
    unfold p_normal. rewrite X, AX. unfold derived_normal; simpl. destruct (Rlt_dec (-1/3) 0); [|lra]. apply vec3_eq; simpl; lra. }
  destruct (obl_angles _ f obl_lapack2 F NN) as (s & d & r & S & CR & CD & SD & Q1 & Q2).
  destruct (C28_fit _ _ f (const_stats 1) 1 obl_lapack2 F eq_refl ltac:(lra)) as (a & b & A & _).
  destruct (C223_nominal _ _ _ f s d r a b obl_lapack2 F S A) as (x & y & C).
  exists f, s, d, r, a, b, y. do 3 (split; [assumption|]). rewrite C. do 5 f_equal.
  apply (C223_axes_pass _ _ _ f s d r a b x y obl_lapack2 F S A C); rewrite AX.
  - simpl. lra.
  - unfold obl_axes2, azimuth_vec, dot. cbn [r0 vx vy vz]. assert (0 < cos (radians s)) by nra. assert (0 < sin (radians s)) by nra. lra.
  - unfold mdet, obl_axes2, dot, cross; cbn [r0 r1 r2 vx vy vz]. lra.
Qed.
Example C223_rake_ex : test_rake_angle svd_ref tilted_data = Ok tt /\ test_rake_angle svd_ref (axis_data 3 2 1) = Raise AssertionError.
Proof.
  split.
  - destruct tilted_fit as (f & F & N & _). apply (C223_rake _ _ f lapack_ref F). rewrite N. simpl. lra.
  - destruct (axis_fit 3 2 1) as (f & F). apply (C223_rake _ _ f lapack_ref F). rewrite (axis_normal _ _ lapack_ref F). simpl. auto.
Qed.

Print Assumptions C223_rake.
Print Assumptions C223_nominal.
Print Assumptions C223_axes_up.
Print Assumptions C223_axes_right.
Print Assumptions C223_axes_pass.
Print Assumptions C223_fails.
