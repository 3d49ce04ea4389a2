(** Lemmas on spherical coordinates and reconstructed planes. *)
From Coq Require Import Reals Lra Lia List Psatz.
From Verif Require Import RVec Trig SpecPlane MPca LSvd LPca LFit LAngles LFit2 LExamples MAxes LAxes MSphere MRecon.
Import ListNotations.
Open Scope R_scope.

Lemma sph2cart_unit : forall p, unit3 (sph2cart p).
Proof.
  intros [lon lat]. unfold unit3, sph2cart; vunf.
  pose proof (sincos1 lon). pose proof (sincos1 lat).
  transitivity (cos lat * cos lat * (sin lon * sin lon + cos lon * cos lon) + sin lat * sin lat); [ring|].
  rewrite H. lra.
Qed.

Lemma cart2sph_spec : forall v, unit3 v ->
  exists p, cart2sph v = Some p /\ sph2cart p = v.
Proof.
  intros [x y z] H. unfold cart2sph. rewrite norm_unit by auto.
  destruct (Req_EM_T 1 0); [lra|]. eexists; split; [reflexivity|]. simpl.
  replace (z / 1) with z by field. unfold unit3 in H; vunf.
  assert (Z : -1 <= z <= 1) by nra.
  rewrite sin_asin by auto. rewrite cos_asin by auto.
  replace (1 - z²) with (x * x + y * y) by (unfold Rsqr; lra).
  destruct (Req_EM_T (x * x + y * y) 0) as [h|h].
  - assert (x = 0) by nra. assert (y = 0) by nra. subst.
    rewrite h, sqrt_0. apply vec3_eq; simpl; ring.
  - assert (P : 0 < sqrt (x * x + y * y)) by (apply sqrt_lt_R0; nra).
    rewrite cos_atan2, sin_atan2 by (destruct (Req_EM_T x 0); [right; nra | auto]).
    apply vec3_eq; simpl; field; lra.
Qed.

Lemma rotate_x_unit : forall v t, unit3 v -> unit3 (rotate_x v t).
Proof.
  intros [x y z] t H. unfold unit3, rotate_x in *; vunf. pose proof (sincos1 t) as S.
  transitivity (x * x + (y * y + z * z) * (sin t * sin t + cos t * cos t)); [ring|]. rewrite S. lra.
Qed.

Lemma rotate_sph_spec : forall lon lat th, exists p, rotate_sph lon lat th = Some p /\
  sph2cart p = rotate_x (sph2cart (radians lon, radians lat)) (radians th).
Proof. intros. apply cart2sph_spec, rotate_x_unit, sph2cart_unit. Qed.

(** up-dip unit vector of the plane *)
Definition up_dip (s d : R) : vec3 := vneg (down_dip s d).

Lemma up_dip_components : forall s d, up_dip s d =
  V3 (- (cos (radians d) * cos (radians s))) (cos (radians d) * sin (radians s)) (sin (radians d)).
Proof.
  intros. unfold up_dip, down_dip, azimuth_vec. rewrite radians_plus, radians_90.
  replace (radians s + PI / 2) with (PI / 2 + radians s) by ring.
  rewrite <- cos_sin. replace (cos (PI / 2 + radians s)) with (- sin (radians s)).
  { apply vec3_eq; vunf; ring. }
  rewrite cos_plus, cos_PI2, sin_PI2. ring.
Qed.

Lemma frame : forall s d,
  orthonormal (M3 (azimuth_vec s) (up_dip s d) (plane_normal s d)) /\
  cross (plane_normal s d) (azimuth_vec s) = up_dip s d /\
  cross (plane_normal s d) (up_dip s d) = vneg (azimuth_vec s).
Proof.
  intros s d. rewrite up_dip_components, plane_normal_components. unfold azimuth_vec, orthonormal.
  pose proof (sincos1 (radians s)) as S. pose proof (sincos1 (radians d)) as D.
  set (ss := sin (radians s)) in *. set (cs := cos (radians s)) in *.
  set (sd := sin (radians d)) in *. set (cd := cos (radians d)) in *. vunf.
  assert (E1 : cd * cd * (ss * ss + cs * cs) = cd * cd) by (rewrite S; ring).
  assert (E2 : sd * sd * (ss * ss + cs * cs) = sd * sd) by (rewrite S; ring).
  assert (E3 : sd * cd * (ss * ss + cs * cs) = sd * cd) by (rewrite S; ring).
  assert (E4 : sd * (ss * ss + cs * cs) = sd) by (rewrite S; ring).
  assert (E5 : ss * (sd * sd + cd * cd) = ss) by (rewrite D; ring).
  assert (E6 : cs * (sd * sd + cd * cd) = cs) by (rewrite D; ring).
  repeat split; try apply vec3_eq; vunf; lra.
Qed.

Lemma pole_spec : forall s d, exists p, pole s d = Some p /\
  vec_of p = if Rlt_dec 90 d then vneg (plane_normal s d) else plane_normal s d.
Proof.
  intros s d.
  assert (G : forall s d, exists p, rotate_sph (- d) 0 s = Some p /\ vec_of p = plane_normal s d).
  { clear. intros s d. destruct (rotate_sph_spec (- d) 0 s) as (p & E & H). exists p. split; auto.
    unfold vec_of. rewrite H. rewrite plane_normal_components. unfold sph2cart, rotate_x.
    rewrite radians_opp, radians_0, cos_0, sin_0, cos_neg, sin_neg. apply vec3_eq; simpl; ring. }
  unfold pole. destruct (Rlt_dec 90 d).
  - destruct (G (s + 180) (180 - d)) as (p & E & H). exists p. split; auto. now rewrite H, plane_normal_flip.
  - destruct (G s d) as (p & E & H). exists p; auto.
Qed.

Lemma sin_90_minus : forall x, sin (radians (90 - x)) = cos (radians x).
Proof. intros. rewrite radians_minus, radians_90. apply sin_shift. Qed.
Lemma cos_90_minus : forall x, cos (radians (90 - x)) = sin (radians x).
Proof. intros. rewrite radians_minus, radians_90. apply cos_shift. Qed.

(** direction in the plane at angle [r] from the reverse strike direction
    towards up-dip *)
Definition rake_dir (s d r : R) : vec3 :=
  vadd (vscale (- cos (radians r)) (azimuth_vec s)) (vscale (sin (radians r)) (up_dip s d)).

Lemma rake_spec : forall s d r, exists p, rake_line s d r = Some p /\
  vec_of p = if Rlt_dec r 0 then vneg (rake_dir s d r) else rake_dir s d r.
Proof.
  intros s d r.
  assert (G : forall r, exists p, rotate_sph (90 - d) (90 - r) s = Some p /\ vec_of p = rake_dir s d r).
  { clear. intros r. destruct (rotate_sph_spec (90 - d) (90 - r) s) as (p & E & H). exists p. split; auto.
    unfold vec_of. rewrite H. unfold rake_dir. rewrite up_dip_components. unfold azimuth_vec, sph2cart, rotate_x.
    rewrite !sin_90_minus, !cos_90_minus. apply vec3_eq; vunf; ring. }
  unfold rake_line. destruct (Rlt_dec r 0).
  - destruct (G (r + 180)) as (p & E & H). exists p. split; auto. rewrite H. unfold rake_dir.
    rewrite radians_plus, radians_180, sin_add_PI, cos_add_PI. apply vec3_eq; vunf; ring.
  - destruct (G r) as (p & E & H). exists p; auto.
Qed.

Lemma rake_dir_frame : forall s d r,
  unit3 (rake_dir s d r) /\ dot (rake_dir s d r) (plane_normal s d) = 0 /\
  cross (plane_normal s d) (rake_dir s d r) =
    vneg (vadd (vscale (sin (radians r)) (azimuth_vec s)) (vscale (cos (radians r)) (up_dip s d))).
Proof.
  intros s d r. destruct (frame s d) as (O & C1 & C2).
  unfold orthonormal in O. simpl in O. destruct O as (A & B & C & AB & AC & BC).
  pose proof (sincos1 (radians r)) as S.
  split; [|split].
  - unfold unit3, nrm2 in *. unfold rake_dir. rewrite !dot_add_l, !dot_add_r, !dot_scale_l, !dot_scale_r.
    rewrite (dot_comm (up_dip s d) (azimuth_vec s)), AB, A, B. lra.
  - unfold rake_dir. rewrite dot_add_l, !dot_scale_l, AC, BC. ring.
  - unfold rake_dir.
    replace (cross (plane_normal s d) (vadd (vscale (- cos (radians r)) (azimuth_vec s)) (vscale (sin (radians r)) (up_dip s d))))
      with (vadd (vscale (- cos (radians r)) (cross (plane_normal s d) (azimuth_vec s)))
                 (vscale (sin (radians r)) (cross (plane_normal s d) (up_dip s d)))) by vring.
    rewrite C1, C2. vring.
Qed.

Lemma frame_coords : forall s d v, dot v (plane_normal s d) = 0 ->
  v = vadd (vscale (dot v (azimuth_vec s)) (azimuth_vec s)) (vscale (dot v (up_dip s d)) (up_dip s d)).
Proof.
  intros s d v H. destruct (frame s d) as (O & _).
  rewrite <- (orthonormal_expand _ v O) at 1. unfold vm, mv; simpl.
  rewrite (dot_comm (plane_normal s d) v), H, (dot_comm (azimuth_vec s) v), (dot_comm (up_dip s d) v).
  vring.
Qed.

Lemma plane_vec_eq : forall s d a b a' b',
  vadd (vscale a (azimuth_vec s)) (vscale b (up_dip s d)) =
  vadd (vscale a' (azimuth_vec s)) (vscale b' (up_dip s d)) -> a = a' /\ b = b'.
Proof.
  intros s d a b a' b' E. destruct (frame s d) as ((A & B & C & AB & AC & BC) & _). simpl in *.
  split.
  - apply (f_equal (fun v => dot v (azimuth_vec s))) in E.
    rewrite !dot_add_l, !dot_scale_l, (dot_comm (up_dip s d) (azimuth_vec s)), A, AB in E. lra.
  - apply (f_equal (fun v => dot v (up_dip s d))) in E. rewrite !dot_add_l, !dot_scale_l, B, AB in E. lra.
Qed.

(** in-plane vectors with coordinates (a, b): same line *)
Lemma plane_same_line : forall s d a b a' b',
  same_line (vadd (vscale a (azimuth_vec s)) (vscale b (up_dip s d)))
            (vadd (vscale a' (azimuth_vec s)) (vscale b' (up_dip s d))) <->
  (a = a' /\ b = b') \/ (a = - a' /\ b = - b').
Proof.
  intros s d a b a' b'. split.
  - intros [E|E]; [left; now apply plane_vec_eq in E|right].
    apply (plane_vec_eq s d). rewrite E. vring.
  - intros [[-> ->]|[-> ->]]; [now left | right; vring].
Qed.

Lemma dip_dr_up_dip : forall s d, 0 < sin (radians d) ->
  normalize (cross (cross (plane_normal s d) ez) (plane_normal s d)) = Some (up_dip s d).
Proof.
  intros s d P. rewrite cross_strike by apply plane_normal_unit.
  assert (E : vsub ez (vscale (vz (plane_normal s d)) (plane_normal s d)) = vscale (sin (radians d)) (up_dip s d)).
  { rewrite up_dip_components, plane_normal_components. pose proof (sincos1 (radians d)).
    apply vec3_eq; vunf; nra. }
  rewrite E. destruct (frame s d) as ((_ & B & _) & _). simpl in B.
  assert (N : norm (vscale (sin (radians d)) (up_dip s d)) = sin (radians d)).
  { rewrite norm_scale, norm_unit by exact B. rewrite Rabs_right by lra. ring. }
  unfold normalize. rewrite N. destruct (Req_EM_T _ 0); [lra|]. f_equal.
  apply vec3_eq; vunf; field; lra.
Qed.

(** an SVD routine overridden on one array *)
Definition vec3_eq_dec (a b : vec3) : {a = b} + {a <> b}.
Proof.
  destruct (Req_EM_T (vx a) (vx b)); [|right; congruence].
  destruct (Req_EM_T (vy a) (vy b)); [|right; congruence].
  destruct (Req_EM_T (vz a) (vz b)); [|right; congruence].
  left. now apply vec3_eq.
Defined.
Definition svd_override (a : list vec3) (r : list vec3 * vec3 * mat3) (svd : svd_fn) : svd_fn :=
  fun x => if list_eq_dec vec3_eq_dec x a then r else svd x.
Lemma svd_override_ok : forall a u s v svd, lapack svd -> is_svd a u s v ->
  lapack (svd_override a (u, s, v) svd).
Proof.
  intros a u s v svd HL H x Hx. unfold svd_ok_on, svd_override.
  destruct (list_eq_dec vec3_eq_dec x a); [subst; auto | now apply HL].
Qed.

(** data whose in-plane axes are oblique to the strike *)
Definition obl_axes : mat3 := M3 (V3 (-1/3) (-2/3) (-2/3)) (V3 (2/3) (1/3) (-2/3)) (V3 (2/3) (-2/3) (1/3)).
Lemma obl_orthonormal : orthonormal obl_axes.
Proof. unfold orthonormal, obl_axes, dot; simpl. repeat split; lra. Qed.
Definition obl_data : list vec3 := map (fun p => vm p obl_axes) (axis_data 3 2 1).
Definition obl_U : list vec3 :=
  [V3 (/ sqrt 2) 0 0; V3 (- / sqrt 2) 0 0; V3 0 (/ sqrt 2) 0; V3 0 (- / sqrt 2) 0;
   V3 0 0 (/ sqrt 2); V3 0 0 (- / sqrt 2)].
Definition obl_s : vec3 := V3 (sqrt 2 * 3) (sqrt 2 * 2) (sqrt 2 * 1).
Lemma obl_centered : centered obl_data = obl_data.
Proof.
  apply centered_id. { discriminate. }
  unfold obl_data, axis_data, vsum; simpl. apply vec3_eq; simpl; ring.
Qed.
Lemma obl_svd : is_svd obl_data obl_U obl_s obl_axes.
Proof.
  assert (P : 0 < sqrt 2) by (apply sqrt_lt_R0; lra).
  assert (S2 : / sqrt 2 * / sqrt 2 = / 2).
  { rewrite <- Rinv_mult. f_equal. apply sqrt_sqrt; lra. }
  assert (K : forall x, / sqrt 2 * (sqrt 2 * x) = x) by (intros; field; lra).
  constructor; try (unfold obl_U; simpl; try lra).
  - unfold obl_data, axis_data, obl_U. cbn [map].
    repeat (apply f_equal2; [f_equal; unfold vmul, obl_s; apply vec3_eq; simpl; field; lra|]).
    reflexivity.
  - exact obl_orthonormal.
Qed.
Definition obl_routine : svd_fn := svd_override obl_data (obl_U, obl_s, obl_axes) svd_ref.
Lemma obl_lapack : lapack obl_routine.
Proof. apply svd_override_ok; [exact lapack_ref | exact obl_svd]. Qed.
Lemma obl_fit : exists f, PCAOrientation obl_routine obl_data None None = Ok f /\ p_axes f = obl_axes.
Proof.
  destruct (fit_exists obl_routine obl_data obl_lapack) as [f F]. { simpl; lia. }
  exists f. split; auto. unfold PCAOrientation, run_svd in F. rewrite obl_centered in F.
  change (length obl_data <? 3)%nat with false in F. rewrite has_zero_ones, vdiv_ones in F.
  unfold obl_routine, svd_override in F.
  destruct (list_eq_dec vec3_eq_dec obl_data obl_data) as [_|h]; [|congruence].
  simpl in F. injection F as <-. reflexivity.
Qed.
