(** Properties C149-: what the figures show. *)
From Coq Require Import Reals Lra Lia List Psatz Arith Bool ZArith String.
From Verif Require Import RVec Trig SpecPlane MPca LSvd LPca LFit LAngles LFit2 LExamples PPca MAxes LAxes MSphere MRecon LRecon PRecon MStereo SpecStereo PStereo MHyper PHyper MFigures.
Import ListNotations.
Notation length := List.length.
Open Scope R_scope.

(** * C149 the polar plot *)
(** The upward direction of a point of a plot of dip against dip direction: clockwise
    angle from north in radians, radius in degrees *)
Definition polar_dir (p : R * R) : vec3 :=
  V3 (sin (fst p) * sin (radians (snd p))) (cos (fst p) * sin (radians (snd p))) (cos (radians (snd p))).

Lemma some_inj : forall A (x y : A), Some x = Some y -> x = y.
Proof. intros A x y H. now injection H. Qed.
Lemma polar_shift : forall lon lat, polar_dir (lon - PI / 2, 90 - degrees lat) =
  V3 (- (cos lat * cos lon)) (cos lat * sin lon) (sin lat).
Proof.
  intros lon lat. unfold polar_dir. cbn [fst snd].
  replace (radians (90 - degrees lat)) with (PI / 2 - lat) by (unfold radians, degrees; field; apply PI_neq0).
  rewrite sin_shift, cos_shift. replace (lon - PI / 2) with (- (PI / 2 - lon)) by ring.
  rewrite sin_neg, cos_neg, sin_shift, cos_shift. apply vec3_eq; cbn [vx vy vz]; ring.
Qed.

(** every vertex is the direction the stereonet shows for the same angle *)
Theorem C149_vertex : forall axes d0 d1 d2 n i, orthonormal axes -> 0 < d0 -> 0 < d1 -> (i < n)%nat ->
  let u := angle_at n i in
  exists p, nth_error (fst (polar_pole axes (mdiag (V3 d0 d1 d2)) n)) i = Some (Some p) /\ 0 <= snd p <= 180 /\
  (exists w, unit3 w /\ dot w (upward axes) = 0 /\
     polar_dir p = vsub (vscale (cos (half_width d0 d1 d2 1 u)) (upward axes)) (vscale (sin (half_width d0 d1 d2 1 u)) w)) /\
  forall l tr, exists q, nth_error (fst (normal_errors axes (mdiag (V3 d0 d1 d2)) l tr n)) i = Some (Some q) /\
     normal_dir tr q = polar_dir p.
Proof.
  intros axes d0 d1 d2 n i O P Q I u.
  destruct (normal_point axes d0 d1 d2 1 false n i O P Q I) as (q & E & D & W & WU). fold u in D, W, WU.
  unfold normal_errors in E. cbn [fst] in E. unfold polar_pole. cbn [fst]. rewrite nth_error_map in E |- *.
  destruct (nth_error _ i) as [e|]; [|discriminate]. cbn [option_map] in *. apply some_inj in E.
  fold (turned axes) in *. set (v := vm e (turned axes)) in *.
  assert (NZ : norm v <> 0).
  { unfold cart2sph in E. destruct (Req_EM_T (norm (lay_normal false v)) 0) as [Z|Z]; [discriminate|].
    intros N. apply Z. rewrite <- N. unfold norm. f_equal. unfold lay_normal. vunf. ring. }
  assert (V0 : v <> vzero) by (intros X; apply NZ; now apply norm_zero_iff).
  set (v' := V3 (- vx v) (vy v) (vz v)).
  assert (NN : norm v' = norm v) by (unfold norm, v'; f_equal; vunf; ring).
  destruct (cart2sph_dir v') as ([lon lat] & E' & S').
  { intros X. apply NZ. rewrite <- NN. now apply norm_zero_iff. }
  exists (lon - PI / 2, 90 - degrees lat). rewrite E'. cbn [option_map]. split; [reflexivity|].
  assert (PD : polar_dir (lon - PI / 2, 90 - degrees lat) = vscale (/ norm v) v).
  { rewrite polar_shift. rewrite NN in S'. unfold sph2cart in S'. pose proof (f_equal vx S') as X. pose proof (f_equal vy S') as Y. pose proof (f_equal vz S') as Z.
    cbn [vx vy vz] in *. apply vec3_eq; cbn [vx vy vz]; unfold v' in *; cbn [vx vy vz vscale] in *; lra. }
  assert (QD : normal_dir false q = vscale (/ norm v) v).
  { destruct (cart2sph_dir (lay_normal false v)) as (q' & Eq & Sq).
    { intros X. apply NZ. apply norm_zero_iff in X. rewrite <- X. unfold norm. f_equal. unfold lay_normal. vunf. ring. }
    rewrite E in Eq. injection Eq as <-. apply lay_normal_dir. rewrite Sq, lay_normal_scale. do 2 f_equal.
    unfold norm. f_equal. unfold lay_normal. vunf. ring. }
  split; [|split].
  - cbn [snd]. unfold cart2sph in E'. destruct (Req_EM_T (norm v') 0); [discriminate|]. apply some_inj in E'. apply (f_equal snd) in E'. cbn [snd] in E'. subst lat.
    pose proof (asin_bound (vz v' / norm v')) as B. set (k := asin (vz v' / norm v')) in *. unfold degrees. pose proof PI_RGT_0 as PP.
    assert (-90 <= k * 180 / PI <= 90); [|lra].
    split; (apply (Rmult_le_reg_r PI); [auto|]; replace (k * 180 / PI * PI) with (k * 180) by (field; lra); lra).
  - eexists. split; [exact W|]. split; [exact WU|]. rewrite PD, <- QD. exact D.
  - intros l tr. destruct (normal_point axes d0 d1 d2 l tr n i O P Q I) as (r & Er & Dr & _). exists r. split; [exact Er|].
    rewrite Dr, PD, <- QD, D. reflexivity.
Qed.

(** the outline lies on a cone about the upward third axis, and is closed *)
Theorem C149_cone : forall axes d0 d1 d2 n i p, orthonormal axes -> 0 < d0 -> 0 < d1 -> (i < n)%nat ->
  nth_error (fst (polar_pole axes (mdiag (V3 d0 d1 d2)) n)) i = Some (Some p) ->
  let g := polar_dir p in
  let c k := dot g k in
  c (r0 axes) * c (r0 axes) * (d0 * d0) + c (r1 axes) * c (r1 axes) * (d1 * d1) = 4 * (d2 * d2) * (c (r2 axes) * c (r2 axes)) /\
  0 < c (upward axes).
Proof.
  intros axes d0 d1 d2 n i p O P Q I E g c.
  destruct (C149_vertex axes d0 d1 d2 n i O P Q I) as (p' & E' & _ & _ & F). rewrite E in E'. injection E' as <-.
  destruct (F 1 true) as (q & Eq & Dq). destruct (normal_point axes d0 d1 d2 1 true n i O P Q I) as (q' & Eq' & D & W & WU).
  rewrite Eq in Eq'. injection Eq' as <-. set (u := angle_at n i) in *. set (h := half_width d0 d1 d2 1 u) in *.
  assert (G : g = vsub (vscale (cos h) (upward axes)) (vscale (sin h) (vadd (vscale (cos u) (r0 (turned axes))) (vscale (sin u) (r1 (turned axes)))))) by (unfold g; rewrite <- Dq; exact D).
  destruct (turned_ok axes O) as [O' U']. destruct O' as (A & B & C & D01 & D02 & D12).
  pose proof (half_width_bound d0 d1 d2 1 u) as HB. fold h in HB. pose proof (cos_gt_0 h ltac:(lra) ltac:(lra)) as CP.
  pose proof (spread_pos d0 d1 u P Q) as SP.
  assert (S2 : spread d0 d1 u * spread d0 d1 u = d0 * cos u * (d0 * cos u) + d1 * sin u * (d1 * sin u)) by (unfold spread; apply sqrt_sqrt; nra).
  assert (T : sin h * spread d0 d1 u = cos h * (2 * d2)).
  { assert (TH : tan h = 2 * d2 * 1 / spread d0 d1 u) by (unfold h, half_width; apply tan_atan).
    unfold tan in TH. apply (Rmult_eq_reg_r (/ (cos h * spread d0 d1 u))); [|apply Rinv_neq_0_compat; nra].
    transitivity (sin h / cos h); [field; lra|]. rewrite TH. field. lra. }
  assert (DU : dot g (upward axes) = cos h).
  { rewrite G, dot_sub_l, !dot_scale_l, WU. destruct (upward_line axes O) as [UU _]. unfold unit3, nrm2 in UU. rewrite UU. ring. }
  assert (D0 : dot g (r0 (turned axes)) = - (sin h * cos u)).
  { rewrite G, dot_sub_l, !dot_scale_l, dot_add_l, !dot_scale_l, (dot_comm (r1 _) (r0 _)), <- U', (dot_comm (r2 _) (r0 _)).
    unfold unit3, nrm2 in A. rewrite A, D01, D02. ring. }
  assert (D1 : dot g (r1 (turned axes)) = - (sin h * sin u)).
  { rewrite G, dot_sub_l, !dot_scale_l, dot_add_l, !dot_scale_l, <- U', (dot_comm (r2 _) (r1 _)).
    unfold unit3, nrm2 in B. rewrite B, D01, D12. ring. }
  assert (SQ : forall k k', k' = k \/ k' = vneg k -> c k' * c k' = dot g k * dot g k).
  { intros k k' [->| ->]; unfold c; [reflexivity|]. rewrite dot_neg_r. ring. }
  assert (K0 : c (r0 axes) * c (r0 axes) = dot g (r0 (turned axes)) * dot g (r0 (turned axes))).
  { apply SQ. unfold turned. destruct (Rlt_dec _ _); [right|now left]. unfold mneg. cbn [r0]. apply vec3_eq; vunf; ring. }
  assert (K1 : c (r1 axes) * c (r1 axes) = dot g (r1 (turned axes)) * dot g (r1 (turned axes))).
  { apply SQ. unfold turned. destruct (Rlt_dec _ _); [right|now left]. unfold mneg. cbn [r1]. apply vec3_eq; vunf; ring. }
  assert (K2 : c (r2 axes) * c (r2 axes) = dot g (upward axes) * dot g (upward axes)).
  { apply SQ. unfold upward. destruct (Rlt_dec _ _); [right|now left]. apply vec3_eq; vunf; ring. }
  split.
  - rewrite K0, K1, K2, D0, D1, DU.
    replace (- (sin h * cos u) * - (sin h * cos u) * (d0 * d0) + - (sin h * sin u) * - (sin h * sin u) * (d1 * d1))
      with (sin h * sin h * (d0 * cos u * (d0 * cos u) + d1 * sin u * (d1 * sin u))) by ring.
    rewrite <- S2. transitivity (sin h * spread d0 d1 u * (sin h * spread d0 d1 u)); [ring|]. rewrite T. ring.
  - unfold c. rewrite DU. exact CP.
Qed.

(** a second drawing of the same fit is the same, and the fit's third axis then points up *)
Theorem C149_again : forall axes cov n, let r := polar_pole axes cov n in
  length (fst r) = n /\ polar_pole (snd r) cov n = r /\ r2 (snd r) = upward axes.
Proof.
  intros axes cov n r. unfold r, polar_pole. cbn [fst snd]. rewrite !map_length. split; [|split].
  - unfold ellipse. rewrite map_length. apply linspace_length.
  - unfold upward. destruct (Rlt_dec (vz (r2 axes)) 0) as [X|X].
    + destruct (Rlt_dec (vz (r2 (mneg axes))) 0) as [Y|Y]; [|reflexivity]. unfold mneg in Y. munf. lra.
    + destruct (Rlt_dec (vz (r2 axes)) 0); [contradiction|reflexivity].
  - unfold upward. destruct (Rlt_dec (vz (r2 axes)) 0); reflexivity.
Qed.

(** the single point drawn for a strike and dip is the normal of that plane; for a fit it
    is its normal, the direction at the centre of the outline *)
Theorem C149_pole : forall s d, polar_dir (polar_point s d) = plane_normal s d.
Proof.
  intros s d. unfold polar_dir, polar_point, plane_normal, azimuth_vec. cbn [fst snd]. apply vec3_eq; vunf; ring.
Qed.
Theorem C149_fit : forall svd arr w f s d, lapack svd -> PCAOrientation svd arr (Some w) None = Ok f ->
  strike_dip f = Some (s, d) -> polar_dir (polar_point s d) = p_normal f /\ p_normal f = upward (p_axes f).
Proof.
  intros svd arr w f s d L F E. rewrite C149_pole. split; [eapply C12_strike_dip_plane; eauto|].
  destruct (weighted_inv _ _ _ _ L F) as (_ & _ & u & s0 & Hs & _ & _ & _ & _ & _ & _ & _ & D).
  destruct D as (X & _). unfold p_normal. rewrite X. unfold derived_normal, upward. destruct (Rlt_dec _ _); reflexivity.
Qed.

(** Cases. *)
Example C149_case : forall i, (i < 4)%nat -> exists p, nth_error (fst (polar_pole mid (mdiag (V3 2 1 (1/2))) 4)) i = Some (Some p) /\ 0 <= snd p <= 180.
Proof.
  intros i I. destruct (C149_vertex mid 2 1 (1/2) 4 i orthonormal_id ltac:(lra) ltac:(lra) I) as (p & E & B & _). now exists p.
Qed.
Example C149_case_plane : polar_point 30 45 = (radians 120, 45) /\ polar_dir (polar_point 0 90) = plane_normal 0 90.
Proof. split; [unfold polar_point; do 2 f_equal; ring|apply C149_pole]. Qed.

Print Assumptions C149_vertex.
Print Assumptions C149_cone.
Print Assumptions C149_again.
Print Assumptions C149_pole.
Print Assumptions C149_fit.
