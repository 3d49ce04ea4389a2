(** Concrete data used by the examples beside the theorems. *)
From Coq Require Import Reals Lra Lia List Psatz Arith.
From Verif Require Import RVec Trig SpecPlane MPca LSvd LPca LFit LAngles LFit2.
Import ListNotations.
Open Scope R_scope.

(** six points on the coordinate axes *)
Definition axis_data (a b c : R) : list vec3 :=
  [V3 a 0 0; V3 (-a) 0 0; V3 0 b 0; V3 0 (-b) 0; V3 0 0 c; V3 0 0 (-c)].

Lemma axis_centered : forall a b c, centered (axis_data a b c) = axis_data a b c.
Proof.
  intros. apply centered_id. { discriminate. }
  unfold axis_data, vsum; simpl. apply vec3_eq; simpl; ring.
Qed.
Lemma axis_Q : forall a b c d e,
  Q (axis_data a b c) d e = 2 * (a * a * (vx d * vx e) + b * b * (vy d * vy e) + c * c * (vz d * vz e)).
Proof. intros a b c [] []. unfold Q, axis_data, dot; simpl. ring. Qed.

Lemma axis_singular : forall svd a b c f, lapack svd -> 0 <= c <= b -> b <= a ->
  PCAOrientation svd (axis_data a b c) None None = Ok f ->
  p_s f = V3 (sqrt 2 * a) (sqrt 2 * b) (sqrt 2 * c).
Proof.
  intros svd a b c f HL Hc Hb HF.
  destruct (fit_inv _ _ _ HL HF) as (_ & u & m & Hs & _). rewrite axis_centered in Hs.
  assert (S2 : sqrt 2 * sqrt 2 = 2) by (apply sqrt_sqrt; lra).
  assert (P2 : 0 < sqrt 2) by (apply sqrt_lt_R0; lra).
  pose proof (Q_upper _ _ _ _ ex Hs ltac:(unfold nrm2; vunf; ring)) as U0.
  pose proof (Q_lower _ _ _ _ ez Hs ltac:(unfold nrm2; vunf; ring)) as L0.
  pose proof (Q_trace _ _ _ _ Hs) as T.
  destruct (Q_axes _ _ _ _ Hs) as (A0 & _ & A2).
  destruct (svd_v _ _ _ _ Hs) as (o0 & _ & o2 & _).
  rewrite !axis_Q in *. unfold ex, ey, ez, dot in *. simpl in *.
  set (x0 := r0 (p_axes f)) in *. set (x2 := r2 (p_axes f)) in *.
  assert (E0 : vx (p_s f) * vx (p_s f) = 2 * (a * a)).
  { assert (a * a * (vx x0 * vx x0) + b * b * (vy x0 * vy x0) + c * c * (vz x0 * vz x0) <= a * a).
    { assert (b * b <= a * a) by nra. assert (c * c <= a * a) by nra.
      assert (vx x0 * vx x0 = 1 - vy x0 * vy x0 - vz x0 * vz x0) as -> by lra.
      assert (0 <= vy x0 * vy x0) by nra. assert (0 <= vz x0 * vz x0) by nra. nra. }
    lra. }
  assert (E2 : vz (p_s f) * vz (p_s f) = 2 * (c * c)).
  { assert (c * c <= a * a * (vx x2 * vx x2) + b * b * (vy x2 * vy x2) + c * c * (vz x2 * vz x2)).
    { assert (c * c <= a * a) by nra. assert (c * c <= b * b) by nra.
      assert (vz x2 * vz x2 = 1 - vy x2 * vy x2 - vx x2 * vx x2) as -> by lra.
      assert (0 <= vy x2 * vy x2) by nra. assert (0 <= vx x2 * vx x2) by nra. nra. }
    lra. }
  assert (E1 : vy (p_s f) * vy (p_s f) = 2 * (b * b)) by lra.
  pose proof (svd_s01 _ _ _ _ Hs). pose proof (svd_s12 _ _ _ _ Hs). pose proof (svd_s2 _ _ _ _ Hs).
  assert (NN : forall x y, 0 <= x -> 0 <= y -> x * x = 2 * (y * y) -> x = sqrt 2 * y).
  { intros x y Hx Hy E. apply Rsqr_inj; auto. nra. unfold Rsqr. rewrite E.
    replace (sqrt 2 * y * (sqrt 2 * y)) with (sqrt 2 * sqrt 2 * (y * y)) by ring. rewrite S2. ring. }
  apply vec3_eq; simpl; apply NN; lra.
Qed.

(** a fit to it exists, for the verified reference decomposition *)
Lemma axis_fit : forall a b c, exists f, PCAOrientation svd_ref (axis_data a b c) None None = Ok f.
Proof. intros. apply (fit_exists svd_ref); [exact svd_ref_ok | simpl; lia]. Qed.

Lemma lapack_ref : lapack svd_ref.
Proof. exact svd_ref_ok. Qed.

(** a fit with three different positive singular values *)
Lemma example_fit : exists f, PCAOrientation svd_ref (axis_data 3 2 1) None None = Ok f /\
  p_s f = V3 (sqrt 2 * 3) (sqrt 2 * 2) (sqrt 2 * 1) /\ 0 < vz (p_s f) /\ vz (p_s f) < vy (p_s f).
Proof.
  destruct (axis_fit 3 2 1) as [f HF]. exists f. split; auto.
  pose proof (axis_singular _ 3 2 1 _ lapack_ref ltac:(lra) ltac:(lra) HF) as E.
  assert (P2 : 0 < sqrt 2) by (apply sqrt_lt_R0; lra).
  split; auto. rewrite E; simpl. lra.
Qed.
(** a fit to coplanar data *)
Lemma example_coplanar_fit : exists f, PCAOrientation svd_ref (axis_data 3 2 0) None None = Ok f /\
  vz (p_s f) = 0 /\ coplanar (axis_data 3 2 0).
Proof.
  destruct (axis_fit 3 2 0) as [f HF]. exists f. split; auto.
  pose proof (axis_singular _ 3 2 0 _ lapack_ref ltac:(lra) ltac:(lra) HF) as E.
  assert (Z : vz (p_s f) = 0) by (rewrite E; simpl; ring). split; auto.
  now apply (s3_zero_coplanar _ _ _ lapack_ref HF).
Qed.

(** a 3-4-5 rotation and the tilted data it produces *)
Definition rot345 : mat3 := M3 (V3 (4/5) 0 (-3/5)) (V3 0 1 0) (V3 (3/5) 0 (4/5)).
Lemma rot345_orthonormal : orthonormal rot345.
Proof. unfold orthonormal, rot345, dot; simpl. repeat split; lra. Qed.
Definition tilted_data : list vec3 := map (mv rot345) (axis_data 3 2 1).

Lemma axis_normal : forall svd f, lapack svd ->
  PCAOrientation svd (axis_data 3 2 1) None None = Ok f -> p_normal f = ez.
Proof.
  intros svd f HL HF.
  pose proof (axis_singular _ 3 2 1 _ HL ltac:(lra) ltac:(lra) HF) as E.
  assert (P2 : 0 < sqrt 2) by (apply sqrt_lt_R0; lra).
  destruct (fit_inv _ _ _ HL HF) as (_ & u & m & Hs & Hm & _ & _ & Em & _ & _ & D).
  assert (L : same_line ez (p_normal f)).
  { eapply same_line_trans; [|apply same_line_sym, normal_line; auto].
    apply (Q_min_unique _ _ _ _ _ Hs).
    - rewrite E; simpl; lra. - vunf; ring.
    - rewrite axis_centered, axis_Q, E. simpl.
      assert (S2 : sqrt 2 * sqrt 2 = 2) by (apply sqrt_sqrt; lra). nra. }
  symmetry. apply same_line_up; auto. { simpl; lra. } now apply normal_up.
Qed.

Lemma tilted_fit : exists f, PCAOrientation svd_ref tilted_data None None = Ok f /\
  p_normal f = V3 (-3/5) 0 (4/5) /\ vz (p_s f) < vy (p_s f) /\ 0 < vz (p_s f).
Proof.
  destruct (axis_fit 3 2 1) as [f0 F0].
  destruct (fit_exists svd_ref tilted_data lapack_ref) as [f F]. { simpl; lia. }
  exists f. split; auto.
  destruct (rot_fits _ _ _ _ _ _ lapack_ref lapack_ref rot345_orthonormal F0 F) as (E & _ & _ & N).
  pose proof (axis_singular _ 3 2 1 _ lapack_ref ltac:(lra) ltac:(lra) F0) as E0.
  assert (P2 : 0 < sqrt 2) by (apply sqrt_lt_R0; lra).
  specialize (N ltac:(rewrite E0; simpl; lra)). rewrite (axis_normal _ _ lapack_ref F0) in N.
  split; [|rewrite E, E0; simpl; lra].
  assert (X : mv rot345 ez = V3 (-3/5) 0 (4/5)) by (apply vec3_eq; unfold rot345; munf; lra).
  rewrite X in N. symmetry. apply same_line_up; auto. { simpl; lra. }
  destruct (fit_inv _ _ _ lapack_ref F) as (_ & u & m & _ & _ & _ & _ & _ & _ & _ & D).
  now apply normal_up.
Qed.
