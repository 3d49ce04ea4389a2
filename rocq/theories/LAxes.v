(** Error axes: proofs for C27-C37, C90. *)
From Coq Require Import Reals Lra Lia List Psatz Arith.
From Verif Require Import RVec Trig SpecPlane MPca LSvd LPca LFit LAngles LFit2 LExamples MAxes.
Import ListNotations.
Open Scope R_scope.

(** the statistic a call uses: F or chi-square quantile *)
Definition stat_value (st : stats) (kw : kwargs) (n : R) : option R :=
  if k_chisq kw then chi2_ppf st (k_confidence kw) (k_dof kw)
  else f_ppf st (k_confidence kw) (k_dof kw) (n - k_dof kw).

(** textbook error term for eigenvalue [x]: z * sqrt(covariance) *)
Definition noise_term (z n e2 x : R) : R := 2 * z * sqrt (x * (e2 / (n - 2))).
Definition sampling_term (z n x : R) : R := z * x * sqrt (2 / (n - 1)).
Definition err_term (m : method) (z n e2 x : R) : R :=
  match m with MNoise => noise_term z n e2 x | MSampling => sampling_term z n x end.

Lemma fsqrt_some : forall x, 0 <= x -> fsqrt x = Some (sqrt x).
Proof. intros x H. unfold fsqrt. destruct (Rlt_dec x 0); [lra | auto]. Qed.
Lemma vsqrt_some : forall v, 0 <= vx v -> 0 <= vy v -> 0 <= vz v ->
  vsqrt v = Some (V3 (sqrt (vx v)) (sqrt (vy v)) (sqrt (vz v))).
Proof. intros v H0 H1 H2. unfold vsqrt. rewrite !fsqrt_some by auto. auto. Qed.

Definition sorted3 (e : vec3) : Prop := 0 <= vz e /\ vz e <= vy e /\ vy e <= vx e.

(** the facts about a fit that the error formulas use *)
Record fit_facts (f : pca) (e : vec3) (n : R) : Prop := {
  ff_e : eigenvalues f = Some e;
  ff_sorted : sorted3 e;
  ff_n : n_of f = n;
  ff_n3 : 3 <= n }.

Lemma fit_has_facts : forall svd arr f, lapack svd ->
  PCAOrientation svd arr None None = Ok f -> exists e, fit_facts f e (INR (length arr)).
Proof.
  intros svd arr f HL HF.
  destruct (eig_is_var _ _ _ HL HF) as (e & E & _ & _ & _ & H1 & H2 & _).
  destruct (fit_inv _ _ _ HL HF) as (Hn & u & m & _ & _ & _ & _ & _ & _ & En & _).
  exists e. constructor; auto.
  - unfold sorted3; lra.
  - unfold n_of. now rewrite En.
  - assert (INR 3 <= INR (length arr)) by (apply le_INR; auto). simpl in *. lra.
Qed.

Definition z_nominal (kw : kwargs) (e : vec3) (n : R) : R :=
  if k_all_axes kw then vz e else vz e / (n - 1).

Definition axes_value (kw : kwargs) (z : R) (e : vec3) (n : R) : vec3 :=
  V3 (Rabs (vx e - err_term (k_method kw) z n (vz e) (vx e)))
     (Rabs (vy e - err_term (k_method kw) z n (vz e) (vy e)))
     (z_nominal kw e n + err_term (k_method kw) z n (vz e) (vz e)).

Lemma err_term_nonneg : forall m z n e2 x, 0 <= z -> 3 <= n -> 0 <= e2 -> 0 <= x ->
  0 <= err_term m z n e2 x.
Proof.
  intros m z n e2 x Hz Hn He Hx. destruct m; simpl; unfold sampling_term, noise_term.
  - apply Rmult_le_pos; [nra | apply sqrt_pos].
  - apply Rmult_le_pos; [lra | apply sqrt_pos].
Qed.

Lemma div_nonneg : forall a b, 0 <= a -> 0 < b -> 0 <= a / b.
Proof. intros a b Ha Hb. apply Rmult_le_pos; auto. left; now apply Rinv_0_lt_compat. Qed.

Lemma noise_sqrt : forall x m, 0 <= x -> 0 <= m -> sqrt (m * (4 * x)) = 2 * sqrt (x * m).
Proof.
  intros x m Hx Hm. replace (m * (4 * x)) with ((2 * 2) * (x * m)) by ring.
  rewrite sqrt_mult by nra. rewrite sqrt_sq_pos by lra. reflexivity.
Qed.
Lemma sampling_sqrt : forall x k, 0 <= x -> 0 <= k -> sqrt (k * (x * x)) = x * sqrt k.
Proof.
  intros x k Hx Hk. rewrite sqrt_mult by nra. rewrite sqrt_sq_pos by lra. ring.
Qed.

Lemma stat_axes_value : forall st kw f e n z, fit_facts f e n ->
  stat_value st kw n = Some z -> 0 <= z ->
  statistical_axes st kw f = Some (axes_value kw z e n).
Proof.
  intros st kw f e n z [E S N N3] Hst Hz. destruct S as (S2 & S1 & S0).
  unfold statistical_axes. rewrite E. simpl obind.
  assert (N1 : n - 1 <> 0) by lra. assert (N2 : n - 2 <> 0) by lra.
  assert (ME : 0 <= vz e / (n - 2)) by (apply div_nonneg; lra).
  assert (K : 0 <= 2 / (n - 1)) by (apply div_nonneg; lra).
  assert (C : exists cov, (match k_method kw with MSampling => sampling_covariance f
        | MNoise => noise_covariance f 2 end) = Some cov /\
     vsqrt cov = Some (match k_method kw with
        | MSampling => V3 (vx e * sqrt (2 / (n-1))) (vy e * sqrt (2 / (n-1))) (vz e * sqrt (2 / (n-1)))
        | MNoise => V3 (2 * sqrt (vx e * (vz e / (n-2)))) (2 * sqrt (vy e * (vz e / (n-2)))) (2 * sqrt (vz e * (vz e / (n-2))))
        end)).
  { destruct (k_method kw).
    - unfold sampling_covariance, fdiv. rewrite E, N. simpl. destruct (Req_EM_T (n - 1) 0); [contradiction|].
      simpl. eexists; split; [reflexivity|]. rewrite vsqrt_some; simpl; try (apply Rmult_le_pos; nra).
      rewrite !sampling_sqrt by lra. reflexivity.
    - unfold noise_covariance, fdiv. rewrite E, N. simpl. destruct (Req_EM_T (n - 2) 0); [contradiction|].
      simpl. eexists; split; [reflexivity|]. rewrite vsqrt_some; simpl; try (apply Rmult_le_pos; lra).
      rewrite !noise_sqrt by lra. reflexivity. }
  destruct C as (cov & -> & SQ). simpl obind.
  assert (ST : (if k_chisq kw then chi2_ppf st (k_confidence kw) (k_dof kw)
         else fisher_statistic st (n_of f) (k_confidence kw) (k_dof kw)) = Some z).
  { rewrite <- Hst. unfold stat_value, fisher_statistic. rewrite N. reflexivity. }
  rewrite ST. simpl obind. rewrite SQ. simpl obind.
  unfold apply_error_scaling, axes_value, z_nominal. rewrite N.
  assert (ZN : (if k_all_axes kw then Some (vz e) else fdiv (vz e) (n - 1)) =
     Some (if k_all_axes kw then vz e else vz e / (n - 1))).
  { destruct (k_all_axes kw); auto. unfold fdiv. destruct (Req_EM_T (n - 1) 0); [contradiction|auto]. }
  rewrite ZN. simpl obind. f_equal.
  assert (Z0 : 0 <= (if k_all_axes kw then vz e else vz e / (n - 1))).
  { destruct (k_all_axes kw); auto. apply div_nonneg; lra. }
  set (zn := if k_all_axes kw then vz e else vz e / (n - 1)) in *.
  pose proof (err_term_nonneg (k_method kw) z n (vz e) (vz e) Hz N3 S2 S2) as EN.
  destruct (k_method kw); simpl in *; unfold vabs, vsub, vscale; simpl; unfold noise_term, sampling_term in *;
  (apply vec3_eq; simpl; [f_equal; ring | f_equal; ring |]);
  rewrite <- Rabs_Ropp, Rabs_right; try ring; try lra.
Qed.

(** * Angular errors *)
Lemma atan2_axis : forall c a, 0 < c -> 0 <= a -> atan2 c a = PI / 2 - atan (a / c).
Proof.
  intros c a Hc Ha. unfold atan2. destruct (Rlt_dec 0 a) as [h|h].
  - assert (E : a / c = / (c / a)) by (field; lra).
    rewrite E. rewrite atan_inv. { ring. } apply Rdiv_lt_0_compat; auto.
  - assert (a = 0) by lra. subst. destruct (Rlt_dec 0 0); [lra|]. destruct (Rlt_dec 0 c); [|lra].
    replace (0 / c) with 0 by (field; lra). rewrite atan_0. ring.
Qed.
Lemma atan2_zero_num : forall a, 0 <= a -> atan2 0 a = 0.
Proof.
  intros a Ha. unfold atan2. destruct (Rlt_dec 0 a).
  - replace (0 / a) with 0 by (field; lra). apply atan_0.
  - destruct (Rlt_dec a 0); [lra|]. destruct (Rlt_dec 0 0); lra.
Qed.

(** monotone in the normal axis, antitone in the in-plane axis *)
Lemma atan2_le : forall c a c' a', 0 <= c -> 0 <= a' -> c <= c' -> a' <= a -> atan2 c a <= atan2 c' a'.
Proof.
  intros c a c' a' Hc Ha' Hcc Haa.
  destruct (Req_EM_T c 0) as [h|h].
  - subst. rewrite atan2_zero_num by lra. destruct (atan2_quadrant c' a'); lra.
  - rewrite !atan2_axis by lra. apply Rplus_le_compat_l, Ropp_le_contravar, atan_le.
    unfold Rdiv. apply Rmult_le_compat; auto. { left; apply Rinv_0_lt_compat; lra. }
    apply Rinv_le_contravar; lra.
Qed.
Lemma atan2_lt_num : forall c c' a, 0 < a -> 0 <= c -> c < c' -> atan2 c a < atan2 c' a.
Proof.
  intros c c' a Ha Hc H. rewrite !atan2_pos by auto. apply atan_increasing.
  apply Rmult_lt_compat_r; auto. now apply Rinv_0_lt_compat.
Qed.
Lemma atan2_lt_den : forall c a a', 0 < c -> 0 <= a' -> a' < a -> atan2 c a < atan2 c a'.
Proof.
  intros c a a' Hc Ha H. rewrite !atan2_axis by lra. apply Rplus_lt_compat_l, Ropp_lt_contravar, atan_increasing.
  apply Rmult_lt_compat_r; auto. now apply Rinv_0_lt_compat.
Qed.

Definition nonneg3 (v : vec3) : Prop := 0 <= vx v /\ 0 <= vy v /\ 0 <= vz v.

Lemma angular_errors_value : forall h, nonneg3 h ->
  angular_errors h = Some (atan2 (sqrt (vz h)) (sqrt (vx h)), atan2 (sqrt (vz h)) (sqrt (vy h))).
Proof. intros h (H0 & H1 & H2). unfold angular_errors. rewrite vsqrt_some by auto. reflexivity. Qed.

Lemma angular_errors_range : forall h a b, nonneg3 h -> angular_errors h = Some (a, b) ->
  0 <= degrees a <= 90 /\ 0 <= degrees b <= 90.
Proof.
  intros h a b N E. rewrite angular_errors_value in E by auto. injection E as <- <-.
  pose proof (atan2_quadrant (sqrt (vz h)) (sqrt (vx h)) (sqrt_pos _) (sqrt_pos _)).
  pose proof (atan2_quadrant (sqrt (vz h)) (sqrt (vy h)) (sqrt_pos _) (sqrt_pos _)).
  rewrite <- degrees_0, <- degrees_PI2. repeat split; apply degrees_le; lra.
Qed.

(** first at most second iff first axis at least second axis *)
Lemma angular_order_iff : forall h a b, nonneg3 h -> 0 < vz h -> angular_errors h = Some (a, b) ->
  (a <= b <-> vy h <= vx h).
Proof.
  intros h a b N P E. rewrite angular_errors_value in E by auto. injection E as <- <-.
  assert (C : 0 < sqrt (vz h)) by (apply sqrt_lt_R0; auto).
  destruct N as (N0 & N1 & _). split; intros H.
  - destruct (Rle_dec (vy h) (vx h)) as [h0|h0]; auto. exfalso.
    assert (sqrt (vx h) < sqrt (vy h)) by (apply sqrt_lt_1; lra).
    pose proof (atan2_lt_den _ _ _ C (sqrt_pos (vx h)) H0). lra.
  - apply atan2_le; auto; try lra; try apply sqrt_pos. apply sqrt_le_1; auto.
Qed.

Lemma axes_value_nonneg : forall kw z e n, sorted3 e -> 3 <= n -> 0 <= z -> nonneg3 (axes_value kw z e n).
Proof.
  intros kw z e n (S2 & S1 & S0) N3 Hz. unfold nonneg3, axes_value; simpl.
  pose proof (err_term_nonneg (k_method kw) z n (vz e) (vz e) Hz N3 S2 S2).
  repeat split; try apply Rabs_pos. unfold z_nominal. destruct (k_all_axes kw); [lra|].
  assert (0 <= vz e / (n - 1)) by (apply div_nonneg; lra). lra.
Qed.

(** * Ordering (C29, C30, C90) *)
Definition noise_t (z n e2 : R) : R := 2 * z * sqrt (e2 / (n - 2)).

Lemma noise_term_t : forall z n e2 x, 3 <= n -> 0 <= e2 -> 0 <= x ->
  noise_term z n e2 x = noise_t z n e2 * sqrt x.
Proof.
  intros z n e2 x Hn He Hx. unfold noise_term, noise_t. rewrite sqrt_mult; auto. ring.
  apply div_nonneg; lra.
Qed.
Lemma noise_axis_t : forall z n e2 x, 3 <= n -> 0 <= e2 -> 0 <= x ->
  Rabs (x - noise_term z n e2 x) = Rabs (sqrt x * sqrt x - noise_t z n e2 * sqrt x).
Proof. intros. rewrite noise_term_t by auto. rewrite sqrt_sqrt by auto. reflexivity. Qed.

(** * Explained variance (C36, C37) *)
Lemma rotated_mean0 : forall svd arr f, lapack svd -> PCAOrientation svd arr None None = Ok f ->
  sumf vx (rotated f) = 0 /\ sumf vy (rotated f) = 0 /\ sumf vz (rotated f) = 0.
Proof.
  intros svd arr f HL HF.
  destruct (fit_inv _ _ _ HL HF) as (_ & u & m & _ & _ & _ & Ea & _).
  unfold rotated. rewrite Ea, !sumf_map. unfold mv; simpl.
  assert (X : forall d, sumf (fun a => dot d a) (centered arr) = 0).
  { intros d. rewrite (sumf_ext _ _ (fun p => dot p d)) by (intros; apply dot_comm).
    rewrite dot_vsum, centered_sum. apply dot_zero_l. }
  rewrite !X. auto.
Qed.

Lemma np_var_col : forall (g : vec3 -> R) l, l <> [] -> sumf g l = 0 ->
  np_var (map g l) = Some (sumf (fun p => g p * g p) l / INR (length l)).
Proof.
  intros g l Hne H. unfold np_var. destruct (map g l) as [|x xs] eqn:E.
  - destruct l; [congruence | discriminate].
  - rewrite <- E. rewrite map_length.
    assert (M : sumf (fun x => x) (map g l) = 0) by (rewrite sumf_map; exact H).
    rewrite M, sumf_map. f_equal. f_equal.
    apply sumf_ext. intros. unfold Rdiv. rewrite Rmult_0_l, Rminus_0_r. reflexivity.
Qed.

Lemma covariance_noise_value : forall svd arr f, lapack svd ->
  PCAOrientation svd arr None None = Ok f ->
  covariance_noise f = Some (vscale (4 / INR (length arr))
    (V3 (vx (p_s f) * vx (p_s f) * vx (p_s f)) (vy (p_s f) * vy (p_s f) * vy (p_s f))
        (vz (p_s f) * vz (p_s f) * vz (p_s f)))).
Proof.
  intros svd arr f HL HF. destruct (rotated_mean0 _ _ _ HL HF) as (M0 & M1 & M2).
  destruct (rotated_moments _ _ _ HL HF) as (Q0 & Q1 & Q2 & _).
  destruct (fit_inv _ _ _ HL HF) as (Hn & u & m & _ & _ & _ & Ea & _).
  assert (L : length (rotated f) = length arr) by (unfold rotated; rewrite map_length, Ea; apply centered_length).
  assert (NE : rotated f <> []) by (intro X; rewrite X in L; simpl in L; lia).
  unfold covariance_noise. rewrite !np_var_col by auto. rewrite Q0, Q1, Q2, L.
  f_equal. assert (0 < INR (length arr)) by (apply lt_0_INR; lia).
  apply vec3_eq; simpl; field; lra.
Qed.

Definition cube (x : R) := x * x * x.

Lemma cube_le : forall x y, 0 <= x -> x <= y -> cube x <= cube y.
Proof. intros x y H0 H. unfold cube. assert (x * x <= y * y) by nra. nra. Qed.
Lemma cube_pos : forall x, 0 < x -> 0 < cube x.
Proof. intros x H. unfold cube. apply Rmult_lt_0_compat; nra. Qed.
Lemma cube_nonneg : forall x, 0 <= x -> 0 <= cube x.
Proof. intros x H. unfold cube. apply Rmult_le_pos; nra. Qed.

Lemma explained_value : forall svd arr f, lapack svd ->
  PCAOrientation svd arr None None = Ok f -> p_s f <> vzero ->
  explained_variance f = Some ((cube (vx (p_s f)) + cube (vy (p_s f))) /
    (cube (vx (p_s f)) + cube (vy (p_s f)) + cube (vz (p_s f)))) /\
  0 < cube (vx (p_s f)) + cube (vy (p_s f)) + cube (vz (p_s f)) /\
  0 <= vz (p_s f) /\ vz (p_s f) <= vy (p_s f) /\ vy (p_s f) <= vx (p_s f) /\ 0 < vx (p_s f).
Proof.
  intros svd arr f HL HF NZ.
  destruct (fit_inv _ _ _ HL HF) as (Hn & u & m & Hs & _).
  pose proof (svd_s01 _ _ _ _ Hs). pose proof (svd_s12 _ _ _ _ Hs). pose proof (svd_s2 _ _ _ _ Hs).
  assert (P : 0 < vx (p_s f)).
  { destruct (Req_EM_T (vx (p_s f)) 0) as [h|h]; [|lra]. exfalso. apply NZ. apply vec3_eq; simpl; lra. }
  pose proof (cube_pos _ P). pose proof (cube_nonneg (vy (p_s f)) ltac:(lra)).
  pose proof (cube_nonneg (vz (p_s f)) ltac:(lra)).
  repeat split; auto; try lra.
  unfold explained_variance. rewrite (covariance_noise_value _ _ _ HL HF). simpl.
  assert (Pn : 0 < INR (length arr)) by (apply lt_0_INR; lia).
  unfold fdiv. unfold cube in *.
  destruct (Req_EM_T _ 0) as [h|h].
  - exfalso. assert (X : 0 < 4 / INR (length arr)) by (apply Rdiv_lt_0_compat; lra). nra.
  - f_equal. field. split; lra.
Qed.
