(** Properties of the front end's cross-sections (C123-C126). *)
From Coq Require Import Reals Lra Lia List Arith String Psatz ZArith.
From Verif Require Import RVec Trig MPca MAxes MSphere LRecon MStereo SpecStereo PStereo MFront SpecFront PFront.
Import ListNotations.
Open Scope R_scope.
Notation length := List.length.

(** * C123: angles are brought into range *)
Lemma turn_down_ok : forall fuel a, a <= PI + INR fuel * (2 * PI) ->
  exists k b, turn_down fuel a = Some b /\ b <= PI /\ a = b + INR k * (2 * PI) /\ (a <= PI -> b = a) /\ (PI < a -> - PI < b).
Proof.
  pose proof PI_RGT_0 as P. induction fuel as [|f IH]; intros a H; simpl turn_down.
  - destruct (Rlt_dec PI a); [simpl in H; lra|]. exists 0%nat, a. simpl. repeat split; auto; lra.
  - destruct (Rlt_dec PI a).
    + rewrite S_INR in H. destruct (IH (a - 2 * PI)) as (k & b & E & B & Q & R1 & R2); [lra|].
      exists (S k), b. rewrite S_INR. split; [exact E|]. split; [exact B|]. split; [lra|]. split; [lra|].
      intros _. destruct (Rle_dec (a - 2 * PI) PI); [rewrite R1 by auto; lra | apply R2; lra].
    + exists 0%nat, a. simpl. repeat split; auto; lra.
Qed.
Lemma turn_up_ok : forall fuel a, - PI - INR fuel * (2 * PI) <= a -> a <= PI ->
  exists k b, turn_up fuel a = Some b /\ - PI <= b <= PI /\ a = b - INR k * (2 * PI) /\ (- PI <= a -> b = a).
Proof.
  pose proof PI_RGT_0 as P. induction fuel as [|f IH]; intros a H1 H2; simpl turn_up.
  - destruct (Rlt_dec a (- PI)); [simpl in H1; lra|]. exists 0%nat, a. simpl. repeat split; auto; lra.
  - destruct (Rlt_dec a (- PI)).
    + rewrite S_INR in H1. destruct (IH (a + 2 * PI)) as (k & b & E & B & Q & _); [lra|lra|].
      exists (S k), b. rewrite S_INR. repeat split; auto; lra.
    + exists 0%nat, a. simpl. repeat split; auto; lra.
Qed.
(** Enough turns to bring any angle into range *)
Definition turns (a : R) : nat := Z.to_nat (up (Rabs a)).
Lemma turns_ok : forall a, Rabs a <= PI + INR (turns a) * (2 * PI).
Proof.
  intros a. unfold turns. destruct (archimed (Rabs a)) as [H _]. pose proof (Rabs_pos a).
  assert (Z : (0 <= up (Rabs a))%Z) by (apply le_IZR; simpl; lra).
  rewrite INR_IZR_INZ, Z2Nat.id by auto. pose proof PI2_3_2. apply IZR_le in Z. nra.
Qed.

(** Both loops end, and the result is the same angle, between -pi and pi. *)
Theorem C123_fix_angle : forall a, exists fuel0, forall fuel, (fuel0 <= fuel)%nat ->
  exists b k, fix_angle fuel a = Some b /\ - PI <= b <= PI /\ a = b + IZR k * (2 * PI) /\
    (- PI <= a <= PI -> b = a).
Proof.
  intros a. exists (turns a). intros fuel HF. pose proof (turns_ok a) as T. pose proof PI_RGT_0 as P.
  assert (T' : Rabs a <= PI + INR fuel * (2 * PI)) by (apply le_INR in HF; nra).
  assert (A1 : a <= Rabs a) by apply Rle_abs.
  assert (A2 : - a <= Rabs a) by (rewrite <- Rabs_Ropp; apply Rle_abs).
  destruct (turn_down_ok fuel a) as (k & b & E & B & Q & R1 & R2); [lra|].
  destruct (turn_up_ok fuel b) as (j & c & E' & B' & Q' & R'); auto.
  { destruct (Rle_dec a PI); [rewrite R1 by auto; lra | specialize (R2 ltac:(lra)); pose proof (pos_INR fuel); nra]. }
  exists c, (Z.of_nat k - Z.of_nat j)%Z. unfold fix_angle. rewrite E. cbn [obind]. split; [exact E'|]. split; [exact B'|].
  split.
  - rewrite minus_IZR, <- !INR_IZR_INZ. lra.
  - intros [L1 L2]. specialize (R1 L2). rewrite R' by lra. exact R1.
Qed.
Example C123_ex : fix_angle 3 (7 / 2 * PI) = Some (- (PI / 2)).
Proof.
  pose proof PI_RGT_0. unfold fix_angle. simpl. destruct (Rlt_dec PI (7 / 2 * PI)); [|lra].
  destruct (Rlt_dec PI (7 / 2 * PI - 2 * PI)); [|lra]. destruct (Rlt_dec PI (7 / 2 * PI - 2 * PI - 2 * PI)); [lra|].
  simpl. destruct (Rlt_dec _ _); [lra|]. f_equal. lra.
Qed.

(** * C124: dip and apparent dip *)
Lemma norm_pos : forall n, n <> vzero -> 0 < norm n.
Proof.
  intros n H. pose proof (norm_nonneg n). destruct (Req_dec (norm n) 0) as [h|h]; [|lra].
  apply norm_zero_iff in h. contradiction.
Qed.
Lemma ratio_bound : forall n, n <> vzero -> -1 <= vz n / norm n <= 1.
Proof.
  intros n H. pose proof (norm_pos n H) as P. pose proof (norm_sqr n) as S. unfold nrm2, dot in S.
  assert (Q : vz n / norm n * (vz n / norm n) <= 1).
  { replace (vz n / norm n * (vz n / norm n)) with (vz n * vz n / (norm n * norm n)) by (field; lra).
    apply Rmult_le_reg_r with (norm n * norm n); [nra|].
    replace (vz n * vz n / (norm n * norm n) * (norm n * norm n)) with (vz n * vz n) by (field; lra). nra. }
  nra.
Qed.
Lemma horizontal_sq : forall n, sqrt (norm n * norm n - vz n * vz n) = sqrt (vx n * vx n + vy n * vy n).
Proof. intros n. f_equal. rewrite norm_sqr. unfold nrm2, dot. ring. Qed.

Lemma dip_values : forall n, n <> vzero -> let d := acos (vz n / norm n) in
  cos d = vz n / norm n /\ sin d = sqrt (vx n * vx n + vy n * vy n) / norm n.
Proof.
  intros n H. cbv zeta. pose proof (norm_pos n H) as P. pose proof (ratio_bound n H) as B.
  split; [apply cos_acos; lra|]. rewrite sin_acos by lra. rewrite <- horizontal_sq.
  replace (1 - (vz n / norm n)²) with ((norm n * norm n - vz n * vz n) / (norm n * norm n)) by (unfold Rsqr; field; lra).
  rewrite sqrt_div_alt by nra. now rewrite sqrt_sq_pos by lra.
Qed.

Lemma fix_small : forall fuel a, - PI <= a <= PI -> fix_angle fuel a = Some a.
Proof.
  intros fuel a H. unfold fix_angle. 
  assert (D : turn_down fuel a = Some a) by (destruct fuel; simpl; destruct (Rlt_dec PI a); auto; lra).
  rewrite D. cbn [obind]. destruct fuel; simpl; destruct (Rlt_dec a (- PI)); auto; lra.
Qed.

(** The dip is the angle between the axis and the vertical; the dip direction is the
    compass direction in which the axis leans. *)
Theorem C124_dip : forall fuel n, n <> vzero ->
  exists d az, dip fuel n = Some (d, az) /\ 0 <= d <= PI /\ - PI < az <= PI /\
    n = vscale (norm n) (V3 (sin d * sin az) (sin d * cos az) (cos d)).
Proof.
  intros fuel n H. pose proof (norm_pos n H) as P. destruct (dip_values n H) as [C S].
  pose proof (atan2_bound (vx n) (vy n)) as B.
  exists (acos (vz n / norm n)), (atan2 (vx n) (vy n)). unfold dip.
  destruct (Req_EM_T (norm n) 0); [lra|]. rewrite fix_small by lra. cbn [obind].
  split; [reflexivity|]. split; [apply acos_bound|]. split; [exact B|]. rewrite S, C.
  destruct (Req_dec (vx n) 0) as [x|x]; [destruct (Req_dec (vy n) 0) as [y|y]|].
  - rewrite x, y. replace (0 * 0 + 0 * 0) with 0 by ring. rewrite sqrt_0.
    apply vec3_eq; unfold vscale; simpl; try rewrite x; try rewrite y; field; lra.
  - assert (Q : 0 < vy n * vy n + vx n * vx n) by (apply hyp_pos; now left).
    rewrite sin_atan2, cos_atan2 by (left; exact y). 
    replace (vx n * vx n + vy n * vy n) with (vy n * vy n + vx n * vx n) by ring.
    assert (0 < sqrt (vy n * vy n + vx n * vx n)) by now apply sqrt_lt_R0.
    apply vec3_eq; unfold vscale; simpl; field; lra.
  - assert (Q : 0 < vy n * vy n + vx n * vx n) by (apply hyp_pos; now right).
    rewrite sin_atan2, cos_atan2 by (right; exact x). 
    replace (vx n * vx n + vy n * vy n) with (vy n * vy n + vx n * vx n) by ring.
    assert (0 < sqrt (vy n * vy n + vx n * vx n)) by now apply sqrt_lt_R0.
    apply vec3_eq; unfold vscale; simpl; field; lra.
Qed.

(** The apparent dip is the slope of the plane in the direction asked for, downwards
    positive, whichever way its normal points; the sign test in the code is always
    true.  Only vertical planes have none. *)
Theorem C124_apparent : forall n az, n <> vzero -> exists fuel0, forall fuel, (fuel0 <= fuel)%nat ->
  (vz n <> 0 -> exists v, apparent_dip fuel n az = Some v /\ - (PI / 2) < v < PI / 2 /\ descends n az (tan v)) /\
  (vz n = 0 -> apparent_dip fuel n az = None).
Proof.
  intros n az H. destruct (C123_fix_angle (az - atan2 (vx n) (vy n))) as (f0 & F). exists f0. intros fuel HF.
  destruct (F fuel HF) as (a & k & E & B & _). pose proof (norm_pos n H) as P. destruct (dip_values n H) as [C S].
  unfold apparent_dip, dip. destruct (Req_EM_T (norm n) 0); [lra|].
  rewrite (fix_small fuel (atan2 (vx n) (vy n))) by (pose proof (atan2_bound (vx n) (vy n)); lra).
  cbn [obind]. rewrite E. cbn [obind]. rewrite C.
  assert (SG : (if Rlt_dec (- PI / 2) a then 1 else if Rlt_dec a (PI / 2) then 1 else -1) = 1).
  { pose proof PI_RGT_0. destruct (Rlt_dec (- PI / 2) a); auto. destruct (Rlt_dec a (PI / 2)); auto. lra. }
  rewrite SG. split.
  - intros Z. destruct (Req_EM_T (vz n / norm n) 0) as [z|z].
    { exfalso. apply Z. apply (Rmult_eq_compat_r (norm n)) in z. unfold Rdiv in z.
      rewrite Rmult_assoc, Rinv_l, Rmult_0_l, Rmult_1_r in z; lra. }
    eexists. split; [reflexivity|]. rewrite Rmult_1_l. split; [match goal with |- context [atan ?x] => pose proof (atan_bound x); lra end|].
    rewrite tan_atan. unfold tan. rewrite S, C. unfold descends, dot. cbn [vx vy vz].
    replace (sqrt (vx n * vx n + vy n * vy n) / norm n / (vz n / norm n))
      with (sqrt (vx n * vx n + vy n * vy n) / vz n) by (field; split; lra).
    rewrite cos_minus.
    assert (SC : sqrt (vx n * vx n + vy n * vy n) * sin (atan2 (vx n) (vy n)) = vx n /\
                 sqrt (vx n * vx n + vy n * vy n) * cos (atan2 (vx n) (vy n)) = vy n).
    { destruct (Req_dec (vx n) 0) as [x|x]; [destruct (Req_dec (vy n) 0) as [y|y]|].
      - rewrite x, y. replace (0 * 0 + 0 * 0) with 0 by ring. rewrite sqrt_0. split; ring.
      - assert (Q : 0 < vy n * vy n + vx n * vx n) by (apply hyp_pos; now left).
        rewrite sin_atan2, cos_atan2 by (left; exact y).
        replace (vx n * vx n + vy n * vy n) with (vy n * vy n + vx n * vx n) by ring.
        assert (0 < sqrt (vy n * vy n + vx n * vx n)) by now apply sqrt_lt_R0. split; field; lra.
      - assert (Q : 0 < vy n * vy n + vx n * vx n) by (apply hyp_pos; now right).
        rewrite sin_atan2, cos_atan2 by (right; exact x).
        replace (vx n * vx n + vy n * vy n) with (vy n * vy n + vx n * vx n) by ring.
        assert (0 < sqrt (vy n * vy n + vx n * vx n)) by now apply sqrt_lt_R0. split; field; lra. }
    destruct SC as [S1 S2].
    replace (vx n * sin az + vy n * cos az + vz n * - (sqrt (vx n * vx n + vy n * vy n) / vz n *
      (cos az * cos (atan2 (vx n) (vy n)) + sin az * sin (atan2 (vx n) (vy n)))))
      with (vx n * sin az + vy n * cos az -
        ((sqrt (vx n * vx n + vy n * vy n) * cos (atan2 (vx n) (vy n))) * cos az +
         (sqrt (vx n * vx n + vy n * vy n) * sin (atan2 (vx n) (vy n))) * sin az)) by (field; lra).
    rewrite S1, S2. ring.
  - intros ->. destruct (Req_EM_T (0 / norm n) 0) as [z|z]; [reflexivity|].
    exfalso. apply z. unfold Rdiv. ring.
Qed.
Example C124_ex : V3 3 4 (-12) <> vzero /\ vz (V3 3 4 (-12)) <> 0.
Proof. split; [intros E; injection E; intros; lra | simpl; lra]. Qed.

(** * C125: the line drawn is the trace of the plane *)
Lemma slope_iff : forall n az d d', vz n <> 0 -> descends n az d -> descends n az d' -> d = d'.
Proof. intros n az d d' Z H H'. unfold descends, dot in *. cbn [vx vy vz] in *. nra. Qed.

(** A point [p] of the plane through the origin in the vertical section along
    [viewpoint] lands on the rotated axis, for any scales of the two screen axes,
    including one pointing down. *)
Theorem C125_trace : forall n viewpoint ratioX ratioY, vz n <> 0 -> ratioX <> 0 -> ratioY <> 0 ->
  exists fuel0, forall fuel, (fuel0 <= fuel)%nat -> exists v, trace_rotation fuel n viewpoint ratioX ratioY = Some v /\
    forall s z, dot n (V3 (s * cos viewpoint) (s * sin viewpoint) z) = 0 ->
      parallel (cos (radians v), sin (radians v)) (ratioX * s, ratioY * z).
Proof.
  intros n vp rx ry Z X Y.
  assert (NZ : n <> vzero) by (intros ->; now apply Z).
  destruct (C124_apparent n (- vp + PI / 2) NZ) as (f0 & F). exists f0. intros fuel HF.
  destruct (F fuel HF) as [F1 _]. destruct (F1 Z) as (a & E & B & D).
  unfold trace_rotation. rewrite E. cbn [obind]. eexists. split; [reflexivity|]. intros s z P.
  assert (RD : radians (- atan2 (tan a) (screen_ratio rx ry) * 180 / PI) = - atan2 (tan a) (screen_ratio rx ry)).
  { unfold radians. pose proof PI_RGT_0. field. lra. }
  rewrite RD, cos_neg, sin_neg. unfold screen_ratio.
  assert (Q : rx / ry <> 0).
  { intros q. apply X. apply (Rmult_eq_compat_r ry) in q. unfold Rdiv in q. rewrite Rmult_assoc, Rinv_l in q; lra. }
  assert (H0 : 0 < (rx / ry) * (rx / ry) + tan a * tan a) by (apply hyp_pos; now left).
  rewrite sin_atan2, cos_atan2 by (left; exact Q).
  assert (W : 0 < sqrt ((rx / ry) * (rx / ry) + tan a * tan a)) by now apply sqrt_lt_R0.
  unfold parallel. cbn [fst snd].
  assert (ZS : z = - tan a * s).
  { unfold descends, dot in D, P. cbn [vx vy vz] in D, P.
    replace (sin (- vp + PI / 2)) with (cos vp) in D by (rewrite sin_plus, sin_PI2, cos_PI2, cos_neg; ring).
    replace (cos (- vp + PI / 2)) with (sin vp) in D by (rewrite cos_plus, sin_PI2, cos_PI2, sin_neg; ring).
    apply Rmult_eq_reg_l with (vz n); [|exact Z]. apply (Rmult_eq_compat_r s) in D. lra. }
  rewrite ZS. set (w := sqrt _) in *. field. split; lra.
Qed.
Example C125_ex : vz (V3 1 2 2) <> 0 /\ dot (V3 1 2 2) (V3 (2 * cos 0) (2 * sin 0) (-1)) = 0.
Proof. split; [simpl; lra|]. unfold dot. simpl. rewrite cos_0, sin_0. lra. Qed.

(** * C126: the angular error shown in a section *)
Lemma vsqrt_pos : forall l, 0 < vx l -> 0 < vy l -> 0 < vz l ->
  vsqrt l = Some (V3 (sqrt (vx l)) (sqrt (vy l)) (sqrt (vz l))).
Proof.
  intros l A B C. unfold vsqrt, fsqrt.
  destruct (Rlt_dec (vx l) 0); [lra|]. destruct (Rlt_dec (vy l) 0); [lra|]. destruct (Rlt_dec (vz l) 0); [lra|]. reflexivity.
Qed.
(** Squared slope of the section of the cone at the angle [a1] from the first axis *)
Lemma cut_value : forall l a1, 0 < vx l -> 0 < vy l -> 0 < vz l ->
  exists a b, cut l a1 = Some (a, b, atan (b / a)) /\ 0 < a /\ 0 < b /\
    b * b = vz l /\ / (a * a) = cos a1 * cos a1 / vx l + sin a1 * sin a1 / vy l.
Proof.
  intros l a1 A B C. unfold cut. rewrite vsqrt_pos by auto. cbn [obind vx vy vz].
  assert (SA := sqrt_lt_R0 _ A). assert (SB := sqrt_lt_R0 _ B). assert (SC := sqrt_lt_R0 _ C).
  destruct (Req_EM_T (sqrt (vx l)) 0); [lra|]. destruct (Req_EM_T (sqrt (vy l)) 0); [lra|].
  destruct (Req_EM_T (sqrt (vz l)) 0); [lra|].
  set (q := 1 / sqrt (vx l) * cos a1 * (1 / sqrt (vx l) * cos a1) + 1 / sqrt (vy l) * sin a1 * (1 / sqrt (vy l) * sin a1)).
  assert (QE : q = cos a1 * cos a1 / vx l + sin a1 * sin a1 / vy l).
  { unfold q. rewrite <- (sqrt_sqrt (vx l)) at 3 by lra. rewrite <- (sqrt_sqrt (vy l)) at 3 by lra. field. split; lra. }
  assert (QP : 0 < q).
  { rewrite QE. pose proof (sincos1 a1). 
    assert (0 <= cos a1 * cos a1 / vx l) by (apply Rle_mult_inv_pos; [apply Rle_0_sqr|auto]).
    assert (0 <= sin a1 * sin a1 / vy l) by (apply Rle_mult_inv_pos; [apply Rle_0_sqr|auto]).
    destruct (Req_dec (cos a1) 0) as [c|c].
    - assert (0 < sin a1 * sin a1 / vy l) by (apply Rdiv_lt_0_compat; [rewrite c in *; lra|auto]). lra.
    - assert (0 < cos a1 * cos a1 / vx l) by (apply Rdiv_lt_0_compat; [pose proof (Rsqr_pos_lt _ c) as p; exact p | auto]). lra. }
  assert (SQ := sqrt_lt_R0 _ QP).
  assert (AP : 0 < 1 / sqrt q) by (apply Rdiv_lt_0_compat; lra).
  assert (BE : 1 / Rabs (1 / sqrt (vz l)) = sqrt (vz l)).
  { rewrite Rabs_pos_eq by (apply Rlt_le, Rdiv_lt_0_compat; lra). field. lra. }
  rewrite BE, atan2_pos by exact AP.
  exists (1 / sqrt q), (sqrt (vz l)). split; [reflexivity|]. repeat split; auto.
  - apply sqrt_sqrt; lra.
  - rewrite <- QE. rewrite <- (sqrt_sqrt q) at 3 by lra. field. lra.
Qed.

(** The angle is that at which the section of the error cone by the plane through
    its axis, at the angle [a1] from the first error axis, opens. *)
Theorem C126_cone : forall axes l a1, orthonormal axes -> 0 < vx l -> 0 < vy l -> 0 < vz l ->
  exists a b e, cut l a1 = Some (a, b, e) /\ 0 < e < PI / 2 /\
    on_cone axes l (vadd (vscale (cos e) (vadd (vscale (cos a1) (r0 axes)) (vscale (sin a1) (r1 axes)))) (vscale (sin e) (r2 axes))).
Proof.
  intros axes l a1 O A B C. destruct (cut_value l a1 A B C) as (a & b & E & PA & PB & BB & AA).
  exists a, b, (atan (b / a)). split; [exact E|].
  assert (BA : 0 < b / a) by (apply Rdiv_lt_0_compat; auto).
  split. { split; [|pose proof (atan_bound (b / a)); lra]. rewrite <- atan_0. now apply atan_increasing. }
  destruct O as (O00 & O11 & O22 & O01 & O02 & O12).
  set (e := atan (b / a)).
  assert (T : sin e / cos e = b / a) by (change (tan e = b / a); apply tan_atan).
  assert (CE : 0 < cos e) by (apply cos_gt_0; unfold e; pose proof (atan_bound (b / a)); lra).
  assert (S : sin e = b / a * cos e) by (rewrite <- T; field; lra).
  unfold on_cone, c0, c1, c2.
  set (w := vadd _ _).
  assert (W0 : dot w (r0 axes) = cos e * cos a1).
  { unfold w. transitivity (cos e * cos a1 * dot (r0 axes) (r0 axes) + cos e * sin a1 * dot (r0 axes) (r1 axes) + sin e * dot (r0 axes) (r2 axes)).
    - unfold dot, vadd, vscale; simpl; ring.
    - unfold unit3, nrm2 in *. rewrite O00, O01, O02. ring. }
  assert (W1 : dot w (r1 axes) = cos e * sin a1).
  { unfold w. transitivity (cos e * cos a1 * dot (r0 axes) (r1 axes) + cos e * sin a1 * dot (r1 axes) (r1 axes) + sin e * dot (r1 axes) (r2 axes)).
    - unfold dot, vadd, vscale; simpl; ring.
    - unfold unit3, nrm2 in *. rewrite O11, O01, O12. ring. }
  assert (W2 : dot w (r2 axes) = sin e).
  { unfold w. transitivity (cos e * cos a1 * dot (r0 axes) (r2 axes) + cos e * sin a1 * dot (r1 axes) (r2 axes) + sin e * dot (r2 axes) (r2 axes)).
    - unfold dot, vadd, vscale; simpl; ring.
    - unfold unit3, nrm2 in *. rewrite O22, O02, O12. ring. }
  rewrite W0, W1, W2.
  transitivity (cos e * cos e * (cos a1 * cos a1 / vx l + sin a1 * sin a1 / vy l)); [field; split; lra|].
  rewrite <- AA, <- BB, S. field. split; lra.
Qed.
Example C126_cone_ex : orthonormal (M3 ex ey ez) /\ 0 < vx (V3 4 1 1).
Proof. split; [|simpl; lra]. unfold orthonormal, unit3. vunf. repeat split; ring. Qed.

(** The error is between those of the two axes. *)
Theorem C126_bounds : forall l a1, 0 < vx l -> 0 < vy l -> vy l <= vx l -> 0 < vz l ->
  exists a b e, cut l a1 = Some (a, b, e) /\
    atan (sqrt (vz l / vx l)) <= e <= atan (sqrt (vz l / vy l)).
Proof.
  intros l a1 A B AB C. destruct (cut_value l a1 A B C) as (a & b & E & PA & PB & BB & AA).
  exists a, b, (atan (b / a)). split; [exact E|].
  assert (BA : 0 < b / a) by (apply Rdiv_lt_0_compat; auto).
  assert (EQ : b / a = sqrt (vz l * (cos a1 * cos a1 / vx l + sin a1 * sin a1 / vy l))).
  { rewrite <- AA, <- BB. replace (b * b * / (a * a)) with ((b / a) * (b / a)) by (field; lra). now rewrite sqrt_square by lra. }
  assert (M : forall x y, x <= y -> atan x <= atan y).
  { intros x y [h|h]; [left; now apply atan_increasing | subst; right; reflexivity]. }
  pose proof (sincos1 a1) as SC.
  assert (I : / vx l <= / vy l) by (apply Rinv_le_contravar; auto).
  assert (0 < / vx l) by now apply Rinv_0_lt_compat.
  rewrite EQ. split; apply M, sqrt_le_1_alt; unfold Rdiv; apply Rmult_le_compat_l; try lra; nra.
Qed.

(** For a horizontal plane this is the opening of the error cone in the vertical
    section, if the first axis does not point to negative y. *)
Theorem C126_section : forall t h l viewpoint, 0 <= t <= PI -> h * h = 1 -> 0 < vx l -> 0 < vy l -> 0 < vz l ->
  let axes := M3 (V3 (cos t) (sin t) 0) (V3 (- h * sin t) (h * cos t) 0) ez in
  exists e, shown_half_error axes l viewpoint = Some e /\
    half_opening axes l (V3 (cos viewpoint) (sin viewpoint) 0) e.
Proof.
  intros t h l vp T H A B C axes.
  assert (O : orthonormal axes).
  { pose proof (sincos1 t) as SC. unfold orthonormal, unit3, axes. vunf. repeat split; try ring; try lra; nra. }
  destruct (C126_cone axes l (vp - t) O A B C) as (a & b & e & E & EB & OC).
  exists e. unfold shown_half_error, plane_angle. cbn [r0 axes vx vy].
  assert (N1 : norm (V3 (cos t) (sin t) 0) = 1).
  { apply norm_unit. unfold unit3. vunf. pose proof (sincos1 t). lra. }
  assert (N2 : norm ex = 1) by (apply norm_unit; unfold unit3; vunf; ring).
  rewrite N1, N2. destruct (Req_EM_T 1 0); [lra|]. cbn [obind].
  assert (D : dot (vscale (/ 1) (V3 (cos t) (sin t) 0)) (vscale (/ 1) ex) = cos t).
  { unfold dot, vscale, ex. simpl. field. }
  rewrite D, acos_cos by exact T. rewrite E. cbn [obind]. split; [reflexivity|]. split; [exact EB|].
  revert OC. unfold on_cone, c0, c1, c2. 
  set (w := vadd _ _). set (w' := vadd _ _).
  assert (SC := sincos1 t).
  assert (W0 : dot w' (r0 axes) = dot w (r0 axes)).
  { unfold w, w', axes, dot, vadd, vscale, ez; simpl. rewrite cos_minus, sin_minus.
    transitivity (cos e * (cos vp * cos t + sin vp * sin t)); [ring|].
    transitivity (cos e * (cos vp * cos t + sin vp * sin t) * (sin t * sin t + cos t * cos t)); [rewrite SC|]; ring. }
  assert (W1 : dot w' (r1 axes) * dot w' (r1 axes) = dot w (r1 axes) * dot w (r1 axes)).
  { assert (X1 : dot w (r1 axes) = h * h * (cos e * (sin vp * cos t - cos vp * sin t))).
    { unfold w, axes, dot, vadd, vscale, ez; simpl. rewrite cos_minus, sin_minus.
      transitivity (h * h * (sin t * sin t + cos t * cos t) * (cos e * (sin vp * cos t - cos vp * sin t))); [ring|].
      rewrite SC. ring. }
    assert (X2 : dot w' (r1 axes) = h * (cos e * (sin vp * cos t - cos vp * sin t))).
    { unfold w', axes, dot, vadd, vscale, ez; simpl. ring. }
    rewrite X1, X2. rewrite H. transitivity (h * h * ((cos e * (sin vp * cos t - cos vp * sin t)) * (cos e * (sin vp * cos t - cos vp * sin t)))); [ring|]. rewrite H. ring. }
  assert (W2 : dot w' (r2 axes) = dot w (r2 axes)).
  { unfold w, w', axes, dot, vadd, vscale, ez; simpl. ring. }
  rewrite W0, W1, W2. auto.
Qed.
Example C126_section_ex : 0 <= PI / 3 <= PI /\ (-1) * (-1) = 1.
Proof. pose proof PI_RGT_0. lra. Qed.

(** When it does, the arc cosine loses the sign of its azimuth and the errors of the
    wrong section are drawn. *)
Theorem C126_section_refuted : exists axes l viewpoint e,
  orthonormal axes /\ r2 axes = ez /\ 0 < vx l /\ 0 < vy l /\ 0 < vz l /\
  shown_half_error axes l viewpoint = Some e /\
  ~ half_opening axes l (V3 (cos viewpoint) (sin viewpoint) 0) e.
Proof.
  set (q := cos (PI / 4)).
  assert (QP : 0 < q) by (apply cos_gt_0; pose proof PI_RGT_0; lra).
  assert (QS : sin (PI / 4) = q) by (unfold q; now rewrite sin_cos_PI4).
  assert (QQ : q * q = 1 / 2) by (pose proof (sincos1 (PI / 4)) as h; rewrite QS in h; fold q in h; lra).
  exists (M3 (V3 q (- q) 0) (V3 q q 0) ez), (V3 4 1 1), (PI / 4), (atan (/ 2)).
  split. { unfold orthonormal, unit3. vunf. repeat split; try ring; lra. }
  split; [reflexivity|]. simpl vx. simpl vy. simpl vz. split; [lra|]. split; [lra|]. split; [lra|].
  split.
  - unfold shown_half_error, plane_angle. cbn [r0 vx vy].
    assert (N1 : norm (V3 q (- q) 0) = 1) by (apply norm_unit; unfold unit3; vunf; lra).
    assert (N2 : norm ex = 1) by (apply norm_unit; unfold unit3; vunf; ring).
    rewrite N1, N2. destruct (Req_EM_T 1 0); [lra|]. cbn [obind].
    replace (dot (vscale (/ 1) (V3 q (- q) 0)) (vscale (/ 1) ex)) with (cos (PI / 4)) by (unfold dot, vscale, ex; simpl; fold q; field).
    rewrite acos_cos by (pose proof PI_RGT_0; lra). rewrite Rminus_diag_eq by reflexivity.
    destruct (cut_value (V3 4 1 1) 0) as (a & b & E & PA & PB & BB & AA); try (simpl; lra).
    rewrite E. cbn [obind]. f_equal. f_equal. simpl in BB, AA. rewrite cos_0, sin_0 in AA.
    assert (b = 1) by nra. assert (a * a = 4). { rewrite <- (Rinv_inv (a * a)). rewrite AA. lra. }
    assert (a = 2) by nra. subst. lra.
  - intros [_ H]. unfold on_cone, c0, c1, c2, dot, vadd, vscale, ez in H. simpl in H. rewrite QS in H. fold q in H.
    set (e := atan (/ 2)) in H.
    assert (T : sin e / cos e = / 2) by (change (tan e = / 2); apply tan_atan).
    assert (CE : 0 < cos e) by (apply cos_gt_0; unfold e; pose proof (atan_bound (/ 2)); lra).
    assert (S : sin e = / 2 * cos e) by (rewrite <- T; field; lra).
    rewrite S in H.
    match type of H with ?x * ?x / 4 + ?y * ?y / 1 = ?z * ?z / 1 =>
      assert (X : x = 0) by (rewrite ?S; ring);
      assert (Y : y = 2 * (q * q) * cos e) by (rewrite ?S; ring);
      assert (ZZ : z = / 2 * cos e) by (rewrite ?S; ring); rewrite X, Y, ZZ, QQ in H end.
    nra.
Qed.

(** The polygon drawn is symmetric about the trace, passes the vertices of the
    hyperbola and ends on its asymptotes, which open at the error just computed. *)
Theorem C126_outline : forall l a1 width ratioX, 0 < vx l -> 0 < vy l -> 0 < vz l -> width <> 0 -> ratioX <> 0 ->
  exists a b e, cut l a1 = Some (a, b, e) /\
    (forall x y, In (x, y) (outline a b width ratioX) -> In (x, - y) (outline a b width ratioX)) /\
    In (0, sqrt (vz l)) (outline a b width ratioX) /\
    (forall x y, In (x, y) (outline a b width ratioX) -> x <> 0 -> Rabs x = Rabs (width / ratioX) /\ Rabs (y / x) = tan e) /\
    (forall x y, In (x, y) (outline a b width ratioX) -> x = 0 -> Rabs y = sqrt (vz l)).
Proof.
  intros l a1 w r A B C W RX. destruct (cut_value l a1 A B C) as (a & b & E & PA & PB & BB & AA).
  exists a, b, (atan (b / a)). split; [exact E|].
  assert (SB : sqrt (vz l) = b) by (rewrite <- BB; apply sqrt_square; lra).
  assert (L : w / r <> 0).
  { intros q. apply W. apply (Rmult_eq_compat_r r) in q. unfold Rdiv in q. rewrite Rmult_assoc, Rinv_l in q; lra. }
  rewrite SB, tan_atan. unfold outline. simpl. set (g := w / r) in *.
  assert (RB : Rabs b = b) by (apply Rabs_pos_eq; lra).
  assert (BA : 0 < b / a) by (apply Rdiv_lt_0_compat; auto).
  assert (RBA : Rabs (b / a) = b / a) by (apply Rabs_pos_eq; lra).
  repeat split.
  - intros x y. rewrite <- (Ropp_involutive (b / a * g)) at 7. rewrite <- (Ropp_involutive b) at 5.
    intros [H|[H|[H|[H|[H|[H|[]]]]]]]; injection H; intros <- <-; rewrite ?Ropp_involutive; auto 10.
  - auto.
  - destruct H as [H|[H|[H|[H|[H|[H|[]]]]]]]; injection H; intros <- <-; rewrite ?Rabs_Ropp; auto; contradict H0; auto.
  - destruct H as [H|[H|[H|[H|[H|[H|[]]]]]]]; injection H; intros <- <-; try (contradict H0; reflexivity);
      match goal with |- Rabs ?t = _ => first [replace t with (b / a) by (field; lra); exact RBA
                                              | replace t with (- (b / a)) by (field; lra); rewrite Rabs_Ropp; exact RBA] end.
  - intros x y [H|[H|[H|[H|[H|[H|[]]]]]]]; injection H; intros <- <- X; rewrite ?Rabs_Ropp; auto; exfalso; apply L; lra.
Qed.
Example C126_outline_ex : exists a b e, cut (V3 4 1 1) 0 = Some (a, b, e) /\ 0 < a.
Proof. destruct (cut_value (V3 4 1 1) 0) as (a & b & E & PA & _); try (simpl; lra). eauto. Qed.

Print Assumptions C123_fix_angle.
Print Assumptions C124_dip.
Print Assumptions C124_apparent.
Print Assumptions C125_trace.
Print Assumptions C126_cone.
Print Assumptions C126_bounds.
Print Assumptions C126_section.
Print Assumptions C126_section_refuted.
Print Assumptions C126_outline.
