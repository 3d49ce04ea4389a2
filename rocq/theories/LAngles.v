(** Strike, dip, rake: proofs for C09-C16. *)
From Coq Require Import Reals Lra Lia List Psatz.
From Verif Require Import RVec Trig SpecPlane MPca LPca.
Import ListNotations.
Open Scope R_scope.

Lemma plane_normal_eq : forall s d,
  plane_normal s d = V3 (sin (radians d) * sin (radians s + PI / 2))
                        (sin (radians d) * cos (radians s + PI / 2)) (cos (radians d)).
Proof.
  intros. unfold plane_normal, azimuth_vec. rewrite radians_plus, radians_90.
  apply vec3_eq; vunf; ring.
Qed.

Lemma plane_normal_components : forall s d,
  plane_normal s d = V3 (sin (radians d) * cos (radians s)) (- (sin (radians d) * sin (radians s)))
                        (cos (radians d)).
Proof.
  intros. rewrite plane_normal_eq. replace (radians s + PI / 2) with (PI / 2 + radians s) by ring.
  rewrite <- cos_sin. replace (cos (PI / 2 + radians s)) with (- sin (radians s)).
  - apply vec3_eq; simpl; ring.
  - rewrite (sin_cos (radians s)). ring.
Qed.

Lemma plane_normal_unit : forall s d, unit3 (plane_normal s d).
Proof.
  intros. rewrite plane_normal_components. unfold unit3; vunf.
  pose proof (sincos1 (radians s)). pose proof (sincos1 (radians d)). nra.
Qed.

Lemma sin_add_PI : forall x, sin (x + PI) = - sin x. Proof. exact neg_sin. Qed.
Lemma cos_add_PI : forall x, cos (x + PI) = - cos x. Proof. exact neg_cos. Qed.

Lemma plane_normal_360 : forall s d, plane_normal (s + 360) d = plane_normal s d.
Proof.
  intros. rewrite !plane_normal_components, radians_plus, radians_360.
  rewrite sin_plus, cos_plus, cos_2PI, sin_2PI. apply vec3_eq; simpl; ring.
Qed.

Lemma plane_normal_flip : forall s d, plane_normal (s + 180) (180 - d) = vneg (plane_normal s d).
Proof.
  intros. rewrite !plane_normal_components. rewrite radians_plus, radians_minus, radians_180.
  rewrite sin_add_PI, cos_add_PI, sin_minus, cos_minus, sin_PI, cos_PI.
  apply vec3_eq; simpl; ring.
Qed.

(** the raw angles before quadrant fixing describe [n] itself *)
Lemma raw_angles : forall n, unit3 n ->
  plane_normal (degrees (atan2 (vx n) (vy n)) - 90) (degrees (acos (vz n / norm n))) = n.
Proof.
  intros [x y z] H. rewrite norm_unit by auto. simpl. replace (z / 1) with z by field.
  unfold unit3 in H; vunf.
  rewrite plane_normal_eq, radians_minus, radians_90, !radians_degrees.
  replace (atan2 x y - PI / 2 + PI / 2) with (atan2 x y) by ring.
  assert (Z : -1 <= z <= 1) by nra.
  rewrite sin_acos by auto. rewrite cos_acos by auto.
  destruct (Req_EM_T x 0) as [hx|hx]; [destruct (Req_EM_T y 0) as [hy|hy]|].
  - assert (E : 1 - z² = 0) by (unfold Rsqr; subst; nra). rewrite E, sqrt_0. subst.
    apply vec3_eq; simpl; ring.
  - assert (N : y <> 0 \/ x <> 0) by auto.
    rewrite (sin_atan2 x y N), (cos_atan2 x y N).
    replace (1 - z²) with (y * y + x * x) by (unfold Rsqr; nra).
    pose proof (hyp_pos y x N) as P. apply sqrt_lt_R0 in P.
    apply vec3_eq; simpl; field; lra.
  - assert (N : y <> 0 \/ x <> 0) by auto.
    rewrite (sin_atan2 x y N), (cos_atan2 x y N).
    replace (1 - z²) with (y * y + x * x) by (unfold Rsqr; nra).
    pose proof (hyp_pos y x N) as P. apply sqrt_lt_R0 in P.
    apply vec3_eq; simpl; field; lra.
Qed.

Lemma acos_deg_bound : forall x, 0 <= degrees (acos x) <= 180.
Proof.
  intros x. pose proof (acos_bound x) as [A B]. split.
  - rewrite <- degrees_0. now apply degrees_le. - rewrite <- degrees_PI. now apply degrees_le.
Qed.
Lemma atan2_deg_bound : forall y x, -180 < degrees (atan2 y x) <= 180.
Proof.
  intros y x. pose proof (atan2_bound y x) as [A B].
  apply degrees_lt in A. apply degrees_le in B. rewrite degrees_opp, degrees_PI in A.
  rewrite degrees_PI in B. lra.
Qed.

Lemma acos_deg_90 : forall z, -1 <= z <= 1 -> (90 < degrees (acos z) <-> z < 0).
Proof.
  intros z Z. rewrite <- degrees_PI2. pose proof (acos_bound z) as B. pose proof PI_pos.
  split; intros H0.
  - assert (PI / 2 < acos z). { destruct (Rle_dec (acos z) (PI/2)) as [h|h]; [|lra].
      apply degrees_le in h. lra. }
    rewrite <- (cos_acos z Z). apply cos_lt_0; lra.
  - apply degrees_lt. destruct (Rle_dec (acos z) (PI/2)) as [h|h]; [|lra].
    assert (0 <= cos (acos z)) by (apply cos_ge_0; lra). rewrite cos_acos in *; lra.
Qed.

Theorem strike_dip_of_spec : forall n, unit3 n ->
  exists s d, strike_dip_of n = Some (s, d) /\ 0 <= d <= 90 /\ 0 <= s < 360 /\
    plane_normal s d = (if Rlt_dec (vz n) 0 then vneg n else n).
Proof.
  intros n H. unfold strike_dip_of.
  destruct (Req_EM_T (norm n) 0) as [h|h]. { rewrite norm_unit in h; auto. lra. }
  pose proof (raw_angles n H) as RA.
  set (t := degrees (atan2 (vx n) (vy n))) in *.
  set (d0 := degrees (acos (vz n / norm n))) in *.
  assert (T : -180 < t <= 180) by apply atan2_deg_bound.
  assert (D : 0 <= d0 <= 180) by apply acos_deg_bound.
  assert (Z : -1 <= vz n <= 1) by (unfold unit3 in H; vunf; nra).
  assert (Q : 90 < d0 <-> vz n < 0).
  { unfold d0. rewrite norm_unit by auto. replace (vz n / 1) with (vz n) by field.
    now apply acos_deg_90. }
  destruct (Rlt_dec 90 d0) as [hd|hd].
  - destruct (Rlt_dec (vz n) 0) as [hz|hz]; [|tauto].
    pose proof (plane_normal_flip (t - 90) d0) as F. rewrite RA in F.
    destruct (Rlt_dec (t - 90 + 180) 0); do 2 eexists; (split; [reflexivity|]);
      repeat split; try lra; rewrite ?plane_normal_360; exact F.
  - destruct (Rlt_dec (vz n) 0) as [hz|hz]; [tauto|].
    destruct (Rlt_dec (t - 90) 0); do 2 eexists; (split; [reflexivity|]);
      repeat split; try lra; rewrite ?plane_normal_360; exact RA.
Qed.

Lemma radians_inj_small : forall a b, -360 < a - b < 360 ->
  cos (radians a) = cos (radians b) -> sin (radians a) = sin (radians b) -> a = b.
Proof.
  intros a b H Hc Hs.
  assert (C : cos (radians (a - b)) = 1).
  { rewrite radians_minus, cos_minus, Hc, Hs. pose proof (sincos1 (radians b)). lra. }
  apply cos_eq_1_small in C.
  - assert (E : degrees (radians (a - b)) = 0) by (rewrite C; apply degrees_0).
    rewrite degrees_radians in E. lra.
  - rewrite <- radians_360, <- radians_opp. split; apply radians_lt; lra.
Qed.

Lemma dip_of_cos : forall d d', 0 <= d <= 180 -> 0 <= d' <= 180 ->
  cos (radians d) = cos (radians d') -> d = d'.
Proof.
  intros d d' H H' E.
  assert (R : forall x, 0 <= x <= 180 -> 0 <= radians x <= PI).
  { intros x Hx. rewrite <- radians_0, <- radians_180. split; apply radians_le; lra. }
  pose proof (acos_unique (radians d) _ (R d H) eq_refl) as A.
  pose proof (acos_unique (radians d') _ (R d' H') eq_refl) as B.
  rewrite E in A. rewrite <- (degrees_radians d), <- (degrees_radians d'). congruence.
Qed.

Lemma sin_dip_pos : forall d, 0 < d < 180 -> 0 < sin (radians d).
Proof.
  intros d H. apply sin_gt_0. - rewrite <- radians_0. apply radians_lt; lra.
  - rewrite <- radians_180. apply radians_lt; lra.
Qed.
Lemma cos_dip_pos : forall d, 0 <= d < 90 -> 0 < cos (radians d).
Proof.
  intros d H. pose proof PI_pos. apply cos_gt_0.
  - assert (0 <= radians d) by (rewrite <- radians_0; apply radians_le; lra). lra.
  - rewrite <- radians_90. apply radians_lt; lra.
Qed.
Lemma cos_dip_nonneg : forall d, 0 <= d <= 90 -> 0 <= cos (radians d).
Proof.
  intros d H. pose proof PI_pos. apply cos_ge_0.
  - assert (0 <= radians d) by (rewrite <- radians_0; apply radians_le; lra). lra.
  - rewrite <- radians_90. apply radians_le; lra.
Qed.

(** Two ways of giving the same normal agree. *)
Theorem plane_normal_inj : forall s d s' d',
  0 <= d <= 90 -> 0 <= d' <= 90 -> 0 <= s < 360 -> 0 <= s' < 360 ->
  plane_normal s d = plane_normal s' d' -> d = d' /\ (d <> 0 -> s = s').
Proof.
  intros s d s' d' Hd Hd' Hs Hs' E. rewrite !plane_normal_components in E.
  injection E as E1 E2 E3.
  assert (d = d') by (apply dip_of_cos; auto; lra). subst d'. split; auto.
  intros N. assert (0 < sin (radians d)) by (apply sin_dip_pos; lra).
  apply radians_inj_small; try lra; nra.
Qed.

Theorem plane_normal_opposite : forall s d s' d',
  0 <= d <= 90 -> 0 <= d' <= 90 -> 0 <= s < 360 -> 0 <= s' < 360 ->
  plane_normal s d = vneg (plane_normal s' d') ->
  d = 90 /\ d' = 90 /\ (s' = s + 180 \/ s' = s - 180).
Proof.
  intros s d s' d' Hd Hd' Hs Hs' E.
  assert (C : cos (radians d) = - cos (radians d')).
  { rewrite !plane_normal_components in E. unfold vneg in E; simpl in E. now injection E. }
  pose proof (cos_dip_nonneg d Hd). pose proof (cos_dip_nonneg d' Hd').
  assert (d = 90). { destruct (Rlt_dec d 90); [|lra]. pose proof (cos_dip_pos d). lra. }
  assert (d' = 90). { destruct (Rlt_dec d' 90); [|lra]. pose proof (cos_dip_pos d'). lra. }
  subst. repeat split; auto.
  rewrite !plane_normal_components in E. unfold vneg in E; simpl in E. injection E as E1 E2 _.
  rewrite radians_90, sin_PI2 in E1, E2.
  destruct (Rlt_dec s 180) as [h|h]; [left | right].
  - apply radians_inj_small; try lra; rewrite radians_plus, radians_180, ?cos_add_PI, ?sin_add_PI; lra.
  - apply radians_inj_small; try lra; rewrite radians_minus, radians_180, ?cos_minus, ?sin_minus, ?cos_PI, ?sin_PI; lra.
Qed.

(** exact values for horizontal planes *)
Lemma atan2_0 : atan2 0 0 = 0. Proof. exact atan2_00. Qed.

Lemma strike_dip_horizontal_up : strike_dip_of (V3 0 0 1) = Some (270, 0).
Proof.
  destruct (strike_dip_of_spec (V3 0 0 1)) as (s & d & E & Hd & Hs & P). { unfold unit3; vunf; ring. }
  assert (D : d = 0).
  { simpl in P. destruct (Rlt_dec 1 0) as [h|h]; [lra|]. rewrite plane_normal_components in P.
    injection P as _ _ C. apply dip_of_cos; try lra. rewrite radians_0, cos_0; auto. }
  subst d. rewrite E. f_equal. f_equal. clear P.
  unfold strike_dip_of in E. simpl in E. destruct (Req_EM_T _ 0); [discriminate|].
  rewrite atan2_00, degrees_0 in E.
  destruct (Rlt_dec 90 _) as [h|h].
  - destruct (Rlt_dec (0 - 90 + 180) 0); injection E as E1 E2; try lra.
    exfalso. rewrite norm_unit in E2 by (unfold unit3; vunf; ring).
    replace (1 / 1) with 1 in E2 by field. rewrite acos_1, degrees_0 in E2. lra.
  - destruct (Rlt_dec (0 - 90) 0); injection E as E1 E2; lra.
Qed.
Lemma strike_dip_horizontal_down : strike_dip_of (V3 0 0 (-1)) = Some (90, 0).
Proof.
  unfold strike_dip_of. simpl.
  assert (N : norm (V3 0 0 (-1)) = 1) by (apply norm_unit; unfold unit3; vunf; ring).
  rewrite N. destruct (Req_EM_T 1 0); [lra|]. rewrite atan2_00, degrees_0.
  replace (-1 / 1) with (-1) by field.
  assert (A : acos (-1) = PI) by (apply acos_unique; [pose proof PI_pos; lra | apply cos_PI]).
  rewrite A, degrees_PI. destruct (Rlt_dec 90 180); [|lra].
  destruct (Rlt_dec (0 - 90 + 180) 0); [lra|]. f_equal. f_equal; lra.
Qed.

Lemma dip_zero_iff : forall n s d, unit3 n -> strike_dip_of n = Some (s, d) ->
  (d = 0 <-> vx n = 0 /\ vy n = 0).
Proof.
  intros n s d H E. destruct (strike_dip_of_spec n H) as (s' & d' & E' & Hd & Hs & P).
  rewrite E in E'. injection E' as <- <-. rewrite plane_normal_components in P.
  assert (V : vz n * vz n = cos (radians d) * cos (radians d)).
  { destruct (Rlt_dec (vz n) 0); rewrite <- ?P; [|simpl; ring].
    assert (vz (vneg n) = cos (radians d)) by (rewrite <- P; reflexivity). simpl in H0. nra. }
  unfold unit3 in H. vunf. split; intros X.
  - subst. rewrite radians_0, cos_0 in V. split; nra.
  - destruct X as [X Y]. rewrite X, Y in H.
    pose proof (cos_dip_nonneg d Hd). assert (cos (radians d) = 1) by nra.
    apply dip_of_cos; try lra. rewrite radians_0, cos_0; auto.
Qed.
Lemma dip_90_iff : forall n s d, unit3 n -> strike_dip_of n = Some (s, d) ->
  (d = 90 <-> vz n = 0).
Proof.
  intros n s d H E. destruct (strike_dip_of_spec n H) as (s' & d' & E' & Hd & Hs & P).
  rewrite E in E'. injection E' as <- <-. rewrite plane_normal_components in P.
  assert (V : vz n = cos (radians d) \/ vz n = - cos (radians d)).
  { destruct (Rlt_dec (vz n) 0); [right|left].
    - assert (vz (vneg n) = cos (radians d)) by (rewrite <- P; reflexivity). simpl in H0. lra.
    - rewrite <- P; reflexivity. }
  split; intros X.
  - subst d. rewrite radians_90, cos_PI2 in V. lra.
  - destruct (Rlt_dec d 90); [|lra]. pose proof (cos_dip_pos d). lra.
Qed.

(** C13 *)
Theorem strike_dip_sign : forall n s d s' d', unit3 n ->
  strike_dip_of n = Some (s, d) -> strike_dip_of (vneg n) = Some (s', d') ->
  d' = d /\ (0 < d < 90 -> s' = s) /\ (d = 90 -> s' = s + 180 \/ s' = s - 180) /\
  (d = 0 -> (s = 270 /\ s' = 90) \/ (s = 90 /\ s' = 270)).
Proof.
  intros n s d s' d' H E E'.
  assert (H' : unit3 (vneg n)) by (unfold unit3; rewrite nrm2_neg; exact H).
  destruct (strike_dip_of_spec n H) as (s1 & d1 & E1 & Hd & Hs & P).
  rewrite E in E1. injection E1 as <- <-.
  destruct (strike_dip_of_spec (vneg n) H') as (s1' & d1' & E1' & Hd' & Hs' & P').
  rewrite E' in E1'. injection E1' as <- <-.
  assert (HZ : d = 0 -> (s = 270 /\ s' = 90) \/ (s = 90 /\ s' = 270)).
  { intros X. apply (dip_zero_iff n s d H E) in X. destruct n as [x y z]; simpl in *. destruct X as [-> ->].
    unfold unit3 in H; vunf. assert (Z : z = 1 \/ z = -1).
    { assert ((z - 1) * (z + 1) = 0) by lra. apply Rmult_integral in H0. destruct H0; [left|right]; lra. }
    unfold vneg in E'; simpl in E'. rewrite Ropp_0 in E'.
    destruct Z as [-> | ->].
    - rewrite strike_dip_horizontal_up in E. replace (- (1)) with (-1) in E' by lra.
      rewrite strike_dip_horizontal_down in E'. injection E as <- _. injection E' as <- _. auto.
    - rewrite strike_dip_horizontal_down in E. replace (- (-1)) with 1 in E' by lra.
      rewrite strike_dip_horizontal_up in E'. injection E as <- _. injection E' as <- _. auto. }
  destruct (Rtotal_order (vz n) 0) as [hz|[hz|hz]].
  - simpl in P'. destruct (Rlt_dec (vz n) 0); [|lra]. destruct (Rlt_dec (- vz n) 0); [lra|].
    rewrite <- P in P'. destruct (plane_normal_inj _ _ _ _ Hd' Hd Hs' Hs P') as [D S].
    repeat split; auto. { intros; apply S; lra. }
    intros X. apply (dip_90_iff n s d H E) in X. lra.
  - assert (D90 : d = 90) by (now apply (dip_90_iff n s d H E)).
    assert (D90' : d' = 90) by (apply (dip_90_iff (vneg n) s' d' H' E'); simpl; lra).
    split; [lra|]. split; [intros; lra|]. split; [|auto]. intros _.
    simpl in P'. destruct (Rlt_dec (vz n) 0); [lra|]. destruct (Rlt_dec (- vz n) 0); [lra|].
    assert (X : plane_normal s d = vneg (plane_normal s' d')) by (rewrite P, P', vneg_invol; auto).
    apply plane_normal_opposite in X; auto. tauto.
  - simpl in P'. destruct (Rlt_dec (vz n) 0); [lra|]. destruct (Rlt_dec (- vz n) 0); [|lra].
    rewrite vneg_invol, <- P in P'. destruct (plane_normal_inj _ _ _ _ Hd' Hd Hs' Hs P') as [D S].
    repeat split; auto. { intros; apply S; lra. }
    intros X. apply (dip_90_iff n s d H E) in X. lra.
Qed.

(** C15: gradient of the third axis *)
Lemma strike_dip_raw : forall n s d, unit3 n -> strike_dip_of n = Some (s, d) ->
  (0 <= vz n -> d = degrees (acos (vz n / norm n)) /\
     cong360 (degrees (atan2 (vx n) (vy n))) (s + 90)) /\
  (vz n < 0 -> d = 180 - degrees (acos (vz n / norm n)) /\
     cong360 (degrees (atan2 (vx n) (vy n))) (s + 90 + 180)).
Proof.
  intros n s d H E. unfold strike_dip_of in E.
  destruct (Req_EM_T (norm n) 0) as [h|h]; [discriminate|].
  assert (Z : -1 <= vz n <= 1) by (unfold unit3 in H; vunf; nra).
  assert (Q : 90 < degrees (acos (vz n / norm n)) <-> vz n < 0).
  { rewrite norm_unit by auto. replace (vz n / 1) with (vz n) by field. now apply acos_deg_90. }
  set (d0 := degrees (acos (vz n / norm n))) in *.
  set (t := degrees (atan2 (vx n) (vy n))) in *.
  destruct (Rlt_dec 90 d0) as [hd|hd].
  - split; [intros; apply Q in hd; lra|]. intros _.
    destruct (Rlt_dec (t - 90 + 180) 0); injection E as <- <-; split; auto.
    + exists (-2)%Z. simpl. lra. + exists (-1)%Z. simpl. lra.
  - split; [|intros X; apply Q in X; lra]. intros _.
    destruct (Rlt_dec (t - 90) 0); injection E as <- <-; split; auto.
    + exists (-1)%Z. simpl. lra. + exists 0%Z. simpl. lra.
Qed.

(** C10 *)
Lemma cross_strike : forall n, unit3 n ->
  cross (cross n ez) n = vsub ez (vscale (vz n) n).
Proof.
  intros [x y z] H. unfold unit3 in H. vunf. apply vec3_eq; simpl; nra.
Qed.
Lemma updip_nrm2 : forall n, unit3 n -> nrm2 (vsub ez (vscale (vz n) n)) = 1 - vz n * vz n.
Proof. intros [x y z] H. unfold unit3 in H. vunf. nra. Qed.

Theorem dip_dr_spec : forall n, unit3 n ->
  (vx n = 0 /\ vy n = 0 -> normalize (cross (cross n ez) n) = None) /\
  (~ (vx n = 0 /\ vy n = 0) -> exists d, normalize (cross (cross n ez) n) = Some d /\
      unit3 d /\ dot d n = 0 /\ dot d (cross n ez) = 0 /\ 0 < vz d).
Proof.
  intros n H. rewrite cross_strike by auto. pose proof (updip_nrm2 n H) as N2.
  unfold normalize. split.
  - intros [X Y]. assert (Z : vz n * vz n = 1) by (unfold unit3 in H; vunf; nra).
    destruct (Req_EM_T _ 0) as [h|h]; auto. exfalso; apply h.
    unfold norm. rewrite N2, Z. replace (1 - 1) with 0 by ring. apply sqrt_0.
  - intros NH. assert (P : 0 < 1 - vz n * vz n).
    { unfold unit3 in H; vunf. destruct (Req_EM_T (vx n) 0); destruct (Req_EM_T (vy n) 0); try tauto; nra. }
    set (w := vsub ez (vscale (vz n) n)) in *.
    assert (Nw : 0 < norm w) by (unfold norm; rewrite N2; apply sqrt_lt_R0; auto).
    destruct (Req_EM_T (norm w) 0) as [h|h]; [lra|].
    eexists; split; [reflexivity|].
    assert (W : norm w * norm w = 1 - vz n * vz n) by (rewrite norm_sqr; exact N2).
    repeat split.
    + unfold unit3. rewrite nrm2_scale, <- norm_sqr. field; lra.
    + rewrite dot_scale_l. assert (dot w n = 0).
      { unfold w. rewrite dot_sub_l, dot_scale_l. unfold unit3, nrm2 in H. rewrite H.
        destruct n; vunf; ring. } rewrite H0; ring.
    + rewrite dot_scale_l. assert (dot w (cross n ez) = 0).
      { unfold w. destruct n; vunf; ring. } rewrite H0; ring.
    + unfold vscale; simpl vz. apply Rmult_lt_0_compat. { now apply Rinv_0_lt_compat. }
      unfold w. destruct n as [x y z]; vunf; simpl in *. lra.
Qed.

(** C16 *)
Lemma vangle_unit : forall a b, unit3 a -> unit3 b ->
  exists t, vangle a b = Some t /\ 0 <= t <= PI /\ cos t = dot a b.
Proof.
  intros a b Ha Hb. unfold vangle. rewrite !norm_unit by auto.
  destruct (Req_EM_T (1 * 1) 0); [lra|]. eexists; split; [reflexivity|].
  replace (dot a b / (1 * 1)) with (dot a b) by field.
  pose proof (acos_bound (dot a b)). split; auto.
  apply cos_acos. pose proof (cauchy_schwarz a b) as C. unfold unit3 in *. rewrite Ha, Hb in C. nra.
Qed.
Lemma vangle_neg : forall a b, unit3 a -> unit3 b ->
  vangle a (vneg b) = option_map (fun t => PI - t) (vangle a b).
Proof.
  intros a b Ha Hb.
  assert (Hb' : unit3 (vneg b)) by (unfold unit3; rewrite nrm2_neg; exact Hb).
  destruct (vangle_unit a b Ha Hb) as (t & E & B & C).
  destruct (vangle_unit a (vneg b) Ha Hb') as (t' & E' & B' & C').
  rewrite E, E'. simpl. f_equal. rewrite dot_neg_r in C'.
  assert (C2 : cos (PI - t) = cos t').
  { rewrite C', <- C, cos_minus, cos_PI, sin_PI. ring. }
  pose proof (acos_unique t' _ B' eq_refl) as A.
  pose proof (acos_unique (PI - t) _ ltac:(lra) eq_refl) as A2. rewrite C2 in A2. congruence.
Qed.
