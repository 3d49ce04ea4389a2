(** C202: what the Bhattacharyya distance of two fits is. *)
From Coq Require Import Reals Lra Lia List Psatz Arith.
From Verif Require Import RVec Trig SpecPlane MPca MAxes LSvd LPca LFit LFit2 LAxes LExamples LRecon SpecBhat MBhat.
Import ListNotations.
Open Scope R_scope.

(** numpy's contract for the inverse *)
Definition inverts (inv : inv_fn) : Prop :=
  forall m, mdet m <> 0 -> exists w, inv m = Ok w /\ mm w m = mid.

Lemma all_positive_spec : forall v, all_positive v = true <-> positive3 v.
Proof.
  intro v. unfold all_positive, positive3.
  destruct (Rlt_dec 0 (vx v)), (Rlt_dec 0 (vy v)), (Rlt_dec 0 (vz v)); split; intro H; auto; try discriminate; tauto.
Qed.
Lemma row_sums_diag : forall d, row_sums (mdiag d) = d.
Proof. intros []. unfold row_sums, mdiag; simpl. apply vec3_eq; simpl; ring. Qed.
Lemma half_sum_diag : forall a b, half_sum (mdiag a) (mdiag b) = mdiag (mid3 a b).
Proof.
  intros [] []. unfold half_sum, mdiag, mid3, vscale, vadd; simpl.
  f_equal; apply vec3_eq; simpl; field.
Qed.
Lemma det_diag : forall d, mdet (mdiag d) = prod3 d.
Proof. intros []. unfold mdet, mdiag, prod3, dot, cross; simpl. ring. Qed.
Lemma prod3_pos : forall v, positive3 v -> 0 < prod3 v.
Proof. intros v (A & B & C). unfold prod3. repeat apply Rmult_lt_0_compat; auto. Qed.
Lemma mid3_pos : forall a b, positive3 a -> positive3 b -> positive3 (mid3 a b).
Proof. intros a b (A & B & C) (D & E & F). unfold positive3, mid3; simpl. repeat split; lra. Qed.

Lemma diag_inverse : forall w d x, positive3 d -> mm w (mdiag d) = mid ->
  dot (vm x w) x = mahalanobis x d.
Proof.
  intros [[a b c] [a' b' c'] [a2 b2 c2]] [p q r] [x y z] (A & B & C) E. simpl in A, B, C.
  unfold mm, vm, mid, mdiag, ex, ey, ez, mahalanobis, dot in *. simpl in *.
  injection E as E1 E2 E3 E4 E5 E6 E7 E8 E9.
  assert (G : forall u v w t : R, 0 < t -> u = v / t -> u * t = v) by (intros; subst; field; lra).
  assert (a = 1 / p) by (apply Rmult_eq_reg_r with p; [|lra]; replace (1 / p * p) with 1 by (field; lra); lra).
  assert (b' = 1 / q) by (apply Rmult_eq_reg_r with q; [|lra]; replace (1 / q * q) with 1 by (field; lra); lra).
  assert (c2 = 1 / r) by (apply Rmult_eq_reg_r with r; [|lra]; replace (1 / r * r) with 1 by (field; lra); lra).
  assert (b = 0) by (apply Rmult_eq_reg_r with q; [|lra]; lra).
  assert (c = 0) by (apply Rmult_eq_reg_r with r; [|lra]; lra).
  assert (a' = 0) by (apply Rmult_eq_reg_r with p; [|lra]; lra).
  assert (c' = 0) by (apply Rmult_eq_reg_r with r; [|lra]; lra).
  assert (a2 = 0) by (apply Rmult_eq_reg_r with p; [|lra]; lra).
  assert (b2 = 0) by (apply Rmult_eq_reg_r with q; [|lra]; lra).
  subst. field. lra.
Qed.

(** The code finishes exactly when all coefficients and variances are positive,
    and is then short of the distance by a quarter of a logarithm. *)
Theorem C202_value : forall inv f1 f2 c1 c2, inverts inv ->
  covariance_noise f1 = Some c1 -> covariance_noise f2 = Some c2 ->
  (positive3 (coefficients f1) /\ positive3 (coefficients f2) /\ positive3 c1 /\ positive3 c2 ->
   bhattacharyya_distance inv f1 f2 =
     Ok (bhattacharyya (coefficients f1) c1 (coefficients f2) c2 - ln (prod3 c1 * prod3 c2) / 4)) /\
  (~ (positive3 (coefficients f1) /\ positive3 (coefficients f2) /\ positive3 c1 /\ positive3 c2) ->
   bhattacharyya_distance inv f1 f2 = Raise AssertionError).
Proof.
  intros inv f1 f2 c1 c2 HI H1 H2. unfold bhattacharyya_distance. rewrite H1, H2, !row_sums_diag, !half_sum_diag, !det_diag.
  split.
  - intros (A & B & C & D).
    rewrite (proj2 (all_positive_spec _) A), (proj2 (all_positive_spec _) B),
      (proj2 (all_positive_spec _) C), (proj2 (all_positive_spec _) D). cbn [assert_].
    pose proof (mid3_pos _ _ C D) as M. pose proof (prod3_pos _ M) as PM.
    pose proof (prod3_pos _ C) as PC. pose proof (prod3_pos _ D) as PD.
    destruct (HI (mdiag (mid3 c1 c2))) as (w & E & W). { rewrite det_diag. lra. }
    rewrite E. cbn [rbind]. assert (PP : 0 < prod3 c1 * prod3 c2) by (apply Rmult_lt_0_compat; auto).
    unfold fdiv. destruct (Req_EM_T (prod3 c1 * prod3 c2) 0); [lra|].
    unfold np_log. destruct (Rlt_dec 0 (prod3 (mid3 c1 c2) / (prod3 c1 * prod3 c2))) as [_|N].
    2:{ exfalso; apply N. apply Rmult_lt_0_compat; auto. apply Rinv_0_lt_compat; auto. }
    cbn [rbind]. f_equal. rewrite (diag_inverse _ _ _ M W). unfold bhattacharyya.
    assert (SP : 0 < sqrt (prod3 c1 * prod3 c2)) by (apply sqrt_lt_R0; auto).
    set (P := prod3 c1 * prod3 c2) in *.
    assert (LS : ln P = 2 * ln (sqrt P)).
    { rewrite <- (sqrt_sqrt P) at 1 by lra. rewrite ln_mult by auto. ring. }
    assert (forall x y, 0 < x -> 0 < y -> ln (x / y) = ln x - ln y) as LD.
    { intros x y Hx Hy. unfold Rdiv. rewrite ln_mult, ln_Rinv; auto. apply Rinv_0_lt_compat; auto. }
    rewrite !LD, LS by auto. field.
  - intro N. destruct (all_positive (coefficients f1)) eqn:A; [|reflexivity].
    destruct (all_positive (coefficients f2)) eqn:B; [|reflexivity].
    destruct (all_positive c1) eqn:C; [|reflexivity]. destruct (all_positive c2) eqn:D; [|reflexivity].
    exfalso. apply N. rewrite <- !all_positive_spec. auto.
Qed.

Lemma amgm : forall a b, 0 < a -> 0 < b -> a * b <= (a + b) / 2 * ((a + b) / 2).
Proof. intros a b A B. pose proof (Rle_0_sqr (a - b)). unfold Rsqr in *. lra. Qed.

(** The distance itself is never negative, and zero between a distribution and itself. *)
Lemma bhattacharyya_nonneg : forall u1 c1 u2 c2, positive3 c1 -> positive3 c2 -> 0 <= bhattacharyya u1 c1 u2 c2.
Proof.
  intros u1 c1 u2 c2 C D. pose proof (mid3_pos _ _ C D) as M. pose proof (prod3_pos _ M) as PM.
  pose proof (prod3_pos _ C) as PC. pose proof (prod3_pos _ D) as PD.
  assert (PP : 0 < prod3 c1 * prod3 c2) by (apply Rmult_lt_0_compat; auto).
  assert (SP : 0 < sqrt (prod3 c1 * prod3 c2)) by (apply sqrt_lt_R0; auto).
  unfold bhattacharyya.
  assert (0 <= mahalanobis (vsub u1 u2) (mid3 c1 c2)).
  { destruct M as (A & B & G). unfold mahalanobis. set (v := vsub u1 u2).
    assert (forall x y, 0 < y -> 0 <= x * x / y) as K.
    { intros x y Hy. apply Rmult_le_pos; [apply Rle_0_sqr | left; apply Rinv_0_lt_compat; auto]. }
    pose proof (K (vx v) _ A). pose proof (K (vy v) _ B). pose proof (K (vz v) _ G). lra. }
  assert (LE : sqrt (prod3 c1 * prod3 c2) <= prod3 (mid3 c1 c2)).
  { rewrite <- (sqrt_Rsqr (prod3 (mid3 c1 c2))) by lra. apply sqrt_le_1_alt. unfold Rsqr.
    destruct C as (C0 & C1 & C2), D as (D0 & D1 & D2). destruct M as (M0 & M1 & M2).
    pose proof (amgm _ _ C0 D0) as A0. pose proof (amgm _ _ C1 D1) as A1. pose proof (amgm _ _ C2 D2) as A2.
    replace (prod3 c1 * prod3 c2) with ((vx c1 * vx c2) * (vy c1 * vy c2) * (vz c1 * vz c2)) by (unfold prod3; ring).
    replace (prod3 (mid3 c1 c2) * prod3 (mid3 c1 c2))
      with ((vx (mid3 c1 c2) * vx (mid3 c1 c2)) * (vy (mid3 c1 c2) * vy (mid3 c1 c2)) * (vz (mid3 c1 c2) * vz (mid3 c1 c2)))
      by (unfold prod3; ring).
    assert (P0 : 0 <= vx c1 * vx c2) by (apply Rmult_le_pos; lra).
    assert (P1 : 0 <= vy c1 * vy c2) by (apply Rmult_le_pos; lra).
    assert (P2 : 0 <= vz c1 * vz c2) by (apply Rmult_le_pos; lra).
    apply Rmult_le_compat; auto. { apply Rmult_le_pos; auto. } apply Rmult_le_compat; auto. }
  assert (0 <= ln (prod3 (mid3 c1 c2) / sqrt (prod3 c1 * prod3 c2))).
  { assert (1 <= prod3 (mid3 c1 c2) / sqrt (prod3 c1 * prod3 c2)).
    { apply Rmult_le_reg_r with (sqrt (prod3 c1 * prod3 c2)); auto. unfold Rdiv. rewrite Rmult_assoc, Rinv_l by lra. lra. }
    rewrite <- ln_1. destruct H0 as [H0|H0]; [left; apply ln_increasing; lra | rewrite <- H0; lra]. }
  lra.
Qed.
Lemma bhattacharyya_same : forall u c, positive3 c -> bhattacharyya u c u c = 0.
Proof.
  intros u c C. pose proof (prod3_pos _ C). unfold bhattacharyya.
  replace (mid3 c c) with c by (destruct c; unfold mid3; simpl; apply vec3_eq; simpl; field).
  replace (vsub u u) with (V3 0 0 0) by (destruct u; unfold vsub; simpl; apply vec3_eq; simpl; ring).
  rewrite sqrt_square by lra. replace (prod3 c / prod3 c) with 1 by (field; lra). rewrite ln_1.
  destruct C as (A & B & D). unfold mahalanobis; simpl. field. lra.
Qed.

Lemma bhattacharyya_sym : forall u1 c1 u2 c2, bhattacharyya u2 c2 u1 c1 = bhattacharyya u1 c1 u2 c2.
Proof.
  intros u1 c1 u2 c2. unfold bhattacharyya.
  assert (M : mid3 c2 c1 = mid3 c1 c2).
  { unfold mid3. rewrite (Rplus_comm (vx c2)), (Rplus_comm (vy c2)), (Rplus_comm (vz c2)). reflexivity. }
  rewrite M, (Rmult_comm (prod3 c2)). f_equal. f_equal. unfold mahalanobis, vsub, Rdiv; cbn [vx vy vz]. ring.
Qed.

Theorem C202_distance : forall inv f1 f2 c1 c2 d, inverts inv ->
  covariance_noise f1 = Some c1 -> covariance_noise f2 = Some c2 -> bhattacharyya_distance inv f1 f2 = Ok d ->
  - ln (prod3 c1 * prod3 c2) / 4 <= d /\
  bhattacharyya_distance inv f2 f1 = Ok d /\
  bhattacharyya_distance inv f1 f1 = Ok (- ln (prod3 c1) / 2).
Proof.
  intros inv f1 f2 c1 c2 d HI H1 H2 HD.
  destruct (C202_value inv f1 f2 c1 c2 HI H1 H2) as (A & B).
  destruct (Classical_Prop.classic (positive3 (coefficients f1) /\ positive3 (coefficients f2) /\ positive3 c1 /\ positive3 c2)) as [P|P].
  2:{ rewrite (B P) in HD. discriminate. }
  rewrite (A P) in HD. injection HD as <-. destruct P as (P1 & P2 & P3 & P4).
  pose proof (bhattacharyya_nonneg (coefficients f1) c1 (coefficients f2) c2 P3 P4). split; [lra|]. split.
  - destruct (C202_value inv f2 f1 c2 c1 HI H2 H1) as (A' & _). rewrite A' by auto. f_equal.
    rewrite bhattacharyya_sym. replace (prod3 c2 * prod3 c1) with (prod3 c1 * prod3 c2) by ring. reflexivity.
  - destruct (C202_value inv f1 f1 c1 c1 HI H1 H1) as (A' & _). rewrite A' by auto. f_equal.
    rewrite bhattacharyya_same by auto. pose proof (prod3_pos _ P3). rewrite ln_mult by auto. field.
Qed.

(** LAPACK may return the third axis with either sign; the code refuses one of the
    two at least. *)
Theorem C202_sign : forall inv f g h c1 c2 c3, inverts inv ->
  covariance_noise f = Some c1 -> covariance_noise g = Some c2 -> covariance_noise h = Some c3 ->
  r2 (p_axes g) = vneg (r2 (p_axes f)) ->
  bhattacharyya_distance inv f h = Raise AssertionError \/ bhattacharyya_distance inv g h = Raise AssertionError.
Proof.
  intros inv f g h c1 c2 c3 HI H1 H2 H3 E.
  destruct (Classical_Prop.classic (positive3 (coefficients f))) as [P|P].
  - right. apply (C202_value inv g h c2 c3 HI H2 H3). intros ((Q & _) & _).
    unfold coefficients in *. rewrite E in Q. destruct P as (P & _). unfold vneg in Q; simpl in Q. lra.
  - left. apply (C202_value inv f h c1 c3 HI H1 H3). tauto.
Qed.

Definition pos_axes : mat3 := M3 (V3 (1/3) (2/3) (-2/3)) (V3 (2/3) (-2/3) (-1/3)) (V3 (2/3) (1/3) (2/3)).
Lemma pos_orthonormal : orthonormal pos_axes.
Proof. unfold orthonormal, pos_axes, dot; simpl. repeat split; lra. Qed.
Definition pos_data : list vec3 := map (fun p => vm p pos_axes) (axis_data 3 2 1).
Lemma pos_centered : centered pos_data = pos_data.
Proof.
  apply centered_id. { discriminate. }
  unfold pos_data, axis_data, vsum; simpl. apply vec3_eq; simpl; ring.
Qed.
Lemma pos_svd : is_svd pos_data obl_U obl_s pos_axes.
Proof.
  assert (P : 0 < sqrt 2) by (apply sqrt_lt_R0; lra).
  assert (S2 : / sqrt 2 * / sqrt 2 = / 2).
  { rewrite <- Rinv_mult. f_equal. apply sqrt_sqrt; lra. }
  constructor; try (unfold obl_U; simpl; try lra).
  - unfold pos_data, axis_data, obl_U. cbn [map].
    repeat (apply f_equal2; [f_equal; unfold vmul, obl_s; apply vec3_eq; simpl; field; lra|]).
    reflexivity.
  - exact pos_orthonormal.
Qed.
Definition pos_routine : svd_fn := svd_override pos_data (obl_U, obl_s, pos_axes) svd_ref.
Lemma pos_lapack : lapack pos_routine.
Proof. apply svd_override_ok; [exact lapack_ref | exact pos_svd]. Qed.
Lemma pos_fit : exists f, PCAOrientation pos_routine pos_data None None = Ok f /\ p_axes f = pos_axes /\ p_s f = obl_s.
Proof.
  destruct (fit_exists pos_routine pos_data pos_lapack) as [f F]. { simpl; lia. }
  exists f. split; auto. unfold PCAOrientation, run_svd in F. rewrite pos_centered in F.
  change (length pos_data <? 3)%nat with false in F. rewrite has_zero_ones, vdiv_ones in F.
  unfold pos_routine, svd_override in F.
  destruct (list_eq_dec vec3_eq_dec pos_data pos_data) as [_|h]; [|congruence].
  simpl in F. injection F as <-. simpl. split; auto. unfold vmul, ones, obl_s; apply vec3_eq; simpl; ring.
Qed.

(** The claim of the test: a fit is at a negative "distance" from itself. *)
Theorem C202_positive_refuted : exists svd arr f, lapack svd /\ PCAOrientation svd arr None None = Ok f /\
  forall inv, inverts inv -> exists d, bhattacharyya_distance inv f f = Ok d /\ d < 0.
Proof.
  destruct pos_fit as (f & F & A & S). exists pos_routine, pos_data, f. split. exact pos_lapack. split; auto.
  intros inv HI. pose proof (covariance_noise_value _ _ _ pos_lapack F) as C.
  rewrite S in C. match type of C with _ = Some ?v => set (c := v) in * end.
  assert (S2 : sqrt 2 * sqrt 2 = 2) by (apply sqrt_sqrt; lra).
  assert (S1 : 1 < sqrt 2). { rewrite <- sqrt_1 at 1. apply sqrt_lt_1; lra. }
  assert (L : INR (length pos_data) = 6) by (simpl; ring).
  assert (C0 : vx c = 4 / 6 * (27 * (sqrt 2 * sqrt 2) * sqrt 2)) by (unfold c, obl_s; rewrite L; simpl; field).
  assert (C1 : vy c = 4 / 6 * (8 * (sqrt 2 * sqrt 2) * sqrt 2)) by (unfold c, obl_s; rewrite L; simpl; field).
  assert (C2 : vz c = 4 / 6 * ((sqrt 2 * sqrt 2) * sqrt 2)) by (unfold c, obl_s; rewrite L; simpl; field).
  rewrite S2 in C0, C1, C2.
  assert (X0 : 1 < vx c) by lra. assert (X1 : 1 < vy c) by lra. assert (X2 : 1 < vz c) by lra.
  assert (P : positive3 c) by (unfold positive3; lra).
  assert (Q : positive3 (coefficients f)) by (unfold coefficients, positive3; rewrite A; simpl; lra).
  destruct (C202_value inv f f c c HI C C) as (V & _). rewrite V by auto. eexists. split. reflexivity.
  rewrite bhattacharyya_same by auto.
  assert (1 < prod3 c).
  { unfold prod3. assert (1 < vx c * vy c) by nra. nra. }
  rewrite ln_mult by lra. assert (0 < ln (prod3 c)) by (rewrite <- ln_1; apply ln_increasing; lra). lra.
Qed.

(** [C202_value] applies to it *)
Example C202_ex : exists svd arr f c, lapack svd /\ PCAOrientation svd arr None None = Ok f /\
  covariance_noise f = Some c /\ positive3 c /\ positive3 (coefficients f).
Proof.
  destruct pos_fit as (f & F & A & S). eexists pos_routine, pos_data, f, _. split. exact pos_lapack. split; auto.
  split. { exact (covariance_noise_value _ _ _ pos_lapack F). }
  assert (P : 0 < sqrt 2) by (apply sqrt_lt_R0; lra).
  assert (L : 0 < 4 / INR (length pos_data)) by (simpl; lra).
  rewrite S. unfold coefficients; rewrite A. unfold positive3, vscale, obl_s. cbn [vx vy vz pos_axes r2].
  repeat split; try lra; repeat apply Rmult_lt_0_compat; try lra.
Qed.
Example C202_inverts : exists inv, inverts inv.
Proof.
  exists (fun m => match Req_EM_T (mdet m) 0 with
    | left _ => Raise LinAlgError
    | right _ => let D := mdet m in
      Ok (mT (M3 (vscale (/ D) (cross (r1 m) (r2 m))) (vscale (/ D) (cross (r2 m) (r0 m))) (vscale (/ D) (cross (r0 m) (r1 m)))))
    end).
  intros m H. destruct (Req_EM_T (mdet m) 0); [contradiction|]. eexists. split. reflexivity.
  destruct m as [[a b c] [d e f] [g h i]]. unfold mm, vm, mid, ex, ey, ez, mT, mdet, dot, cross, vscale in *; simpl in *.
  f_equal; apply vec3_eq; simpl; field; auto.
Qed.

Print Assumptions C202_value.
Print Assumptions C202_distance.
Print Assumptions C202_sign.
Print Assumptions C202_positive_refuted.
