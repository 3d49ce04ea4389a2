(** Properties C01-C26 and C89: PCA plane fits.
    Every theorem quantifies over the SVD routine: [lapack svd] says that it
    meets LAPACK's contract on arrays of at least three rows
    ([LSvd.svd_ref_ok] shows that such routines exist). *)
From Coq Require Import Reals Lra Lia List Permutation Arith.
From Verif Require Import RVec Trig SpecPlane MPca LSvd LPca LFit LAngles LFit2 LExamples.
Import ListNotations.
Open Scope R_scope.

(** ** C01 *)
Theorem C01_total_least_squares : forall svd arr f, lapack svd ->
  PCAOrientation svd arr None None = Ok f ->
  exists m, center f = Some m /\ is_mean m arr /\ unit3 (p_normal f) /\
  forall n d, unit3 n ->
    sum_sq_dist (p_normal f) (dot (p_normal f) m) arr <= sum_sq_dist n d arr.
Proof. exact tls_optimal. Qed.
Theorem C01_unique_when_gap : forall svd arr f, lapack svd ->
  PCAOrientation svd arr None None = Ok f -> vz (p_s f) < vy (p_s f) ->
  forall m n d, center f = Some m -> unit3 n ->
    sum_sq_dist n d arr <= sum_sq_dist (p_normal f) (dot (p_normal f) m) arr ->
    same_line n (p_normal f) /\ d = dot n m.
Proof. exact tls_unique. Qed.
Example C01_ex : exists f, PCAOrientation svd_ref tilted_data None None = Ok f /\
  p_normal f = V3 (-3/5) 0 (4/5) /\ vz (p_s f) < vy (p_s f).
Proof. destruct tilted_fit as (f & H & N & G & _). exists f; auto. Qed.

(** ** C02 *)
Theorem C02_residual_sum : forall svd arr f, lapack svd ->
  PCAOrientation svd arr None None = Ok f ->
  forall m, center f = Some m ->
  sum_sq_dist (p_normal f) (dot (p_normal f) m) arr = vz (p_s f) * vz (p_s f).
Proof. exact ssd_is_s3. Qed.
Theorem C02_residual_vectors : forall svd arr f, lapack svd ->
  PCAOrientation svd arr None None = Ok f ->
  (forall m, center f = Some m ->
    Forall2 (fun p r => (exists k, r = vscale k (p_normal f)) /\
                        dot (p_normal f) (vsub (vsub p m) r) = 0) arr (residuals f)) /\
  sumf nrm2 (residuals f) = vz (p_s f) * vz (p_s f).
Proof.
  intros svd arr f HL HF. split.
  - exact (residuals_perp svd arr f HL HF).
  - exact (residuals_ss svd arr f HL HF).
Qed.
Example C02_ex : exists f, PCAOrientation svd_ref (axis_data 3 2 1) None None = Ok f /\ 0 < vz (p_s f).
Proof. destruct example_fit as (f & H & _ & P & _). exists f; auto. Qed.

(** ** C03: every field but the array and its mean is the same, and the same
    errors are raised; also with weights or saved axes. *)
Theorem C03_translation : forall svd arr w ax t,
  PCAOrientation svd (map (vadd t) arr) w ax =
  match PCAOrientation svd arr w ax with
  | Ok f => Ok {| p_array := map (vadd t) (p_array f); p_mean := option_map (vadd t) (p_mean f);
        p_arr := p_arr f; p_weights := p_weights f; p_n := p_n f; p_U := p_U f; p_s := p_s f;
        p_axes := p_axes f; p_offset := p_offset f; p_normal_own := p_normal_own f;
        p_strike := p_strike f; p_dip_dr := p_dip_dr f |}
  | Raise e => Raise e
  | NonFinite => NonFinite
  end.
Proof. exact translation. Qed.
Theorem C03_observables : forall svd arr w ax t f g,
  PCAOrientation svd arr w ax = Ok f -> PCAOrientation svd (map (vadd t) arr) w ax = Ok g ->
  p_axes g = p_axes f /\ p_s g = p_s f /\ p_normal g = p_normal f /\
  strike_dip g = strike_dip f /\ rake g = rake f /\ eigenvalues g = eigenvalues f /\
  residuals g = residuals f /\ principal_axes g = principal_axes f /\
  center g = option_map (vadd t) (center f).
Proof.
  intros svd arr w ax t f g F G. rewrite translation, F in G. injection G as <-.
  repeat split; reflexivity.
Qed.
Example C03_ex : exists f g,
  PCAOrientation svd_ref tilted_data None None = Ok f /\
  PCAOrientation svd_ref (map (vadd (V3 1 2 3)) tilted_data) None None = Ok g.
Proof.
  destruct tilted_fit as (f & H & _). exists f. rewrite translation, H. eexists; split; reflexivity.
Qed.

(** ** C04 *)
Theorem C04_centering : forall a, a <> [] ->
  vsum (centered a) = vzero /\ length (centered a) = length a /\
  centered (centered a) = centered a /\ (forall t, centered (map (vadd t) a) = centered a) /\
  exists m, is_mean m a /\ map (vadd m) (centered a) = a.
Proof.
  intros a Hne. destruct (mean_exists a Hne) as [m Hm].
  split; [apply centered_sum|]. split; [apply centered_length|]. split; [apply centered_idem|].
  split; [intros; apply centered_shift|]. exists m. split; auto.
  rewrite (centered_mean m) by auto. rewrite map_map.
  rewrite (map_ext _ (fun p => p)); [apply map_id | intros; vring].
Qed.
Theorem C04_differences : forall a i j p q p' q',
  nth_error a i = Some p -> nth_error a j = Some q ->
  nth_error (centered a) i = Some p' -> nth_error (centered a) j = Some q' ->
  vsub p' q' = vsub p q.
Proof.
  intros a i j p q p' q' Hp Hq Hp' Hq'.
  assert (Hne : a <> []) by (intro; subst; destruct i; discriminate).
  destruct (mean_exists a Hne) as [m Hm]. rewrite (centered_mean m) in * by auto.
  rewrite nth_error_map in Hp', Hq'. rewrite Hp in Hp'. rewrite Hq in Hq'.
  injection Hp' as <-. injection Hq' as <-. vring.
Qed.
Example C04_ex : centered [V3 1 2 3; V3 3 4 7] = [V3 (-1) (-1) (-2); V3 1 1 2].
Proof.
  rewrite (centered_mean (V3 2 3 5)).
  - simpl. f_equal; [|f_equal]; apply vec3_eq; vunf; ring.
  - split. discriminate. unfold vsum; simpl. apply vec3_eq; vunf; simpl; ring.
Qed.

(** ** C05 *)
Theorem C05_too_few_points : forall svd arr w,
  (forall u, w = Some u -> vx u <> 0 /\ vy u <> 0 /\ vz u <> 0) ->
  (PCAOrientation svd arr w None = Raise ValueError <-> (length arr < 3)%nat) /\
  ((3 <= length arr)%nat -> exists f, PCAOrientation svd arr w None = Ok f).
Proof. exact too_few. Qed.
Example C05_ex : PCAOrientation svd_ref [V3 1 2 3; V3 4 5 6] None None = Raise ValueError.
Proof. reflexivity. Qed.

(** ** C06 *)
Theorem C06_row_order : forall svd1 svd2 arr1 arr2 f1 f2,
  lapack svd1 -> lapack svd2 -> Permutation arr1 arr2 ->
  PCAOrientation svd1 arr1 None None = Ok f1 -> PCAOrientation svd2 arr2 None None = Ok f2 ->
  p_s f2 = p_s f1 /\ eigenvalues f2 = eigenvalues f1 /\ center f2 = center f1 /\
  (vz (p_s f1) < vy (p_s f1) -> same_line (p_normal f1) (p_normal f2)) /\
  (vz (p_s f1) < vy (p_s f1) -> 0 < vz (p_normal f1) -> p_normal f1 = p_normal f2).
Proof.
  intros svd1 svd2 arr1 arr2 f1 f2 L1 L2 P F1 F2.
  destruct (perm_fits _ _ _ _ _ _ L1 L2 P F1 F2) as (S & N & C & H).
  unfold eigenvalues. rewrite S, N. repeat split; auto.
  intros G Z. apply same_line_up; auto.
  destruct (fit_inv _ _ _ L2 F2) as (_ & u & m & _ & _ & _ & _ & _ & _ & _ & D). now apply normal_up.
Qed.
Example C06_ex : exists f1 f2, Permutation tilted_data (rev tilted_data) /\
  PCAOrientation svd_ref tilted_data None None = Ok f1 /\
  PCAOrientation svd_ref (rev tilted_data) None None = Ok f2 /\
  vz (p_s f1) < vy (p_s f1) /\ 0 < vz (p_normal f1).
Proof.
  destruct tilted_fit as (f & H & N & G & _).
  destruct (fit_exists svd_ref (rev tilted_data) lapack_ref) as [f2 F2]. { simpl; lia. }
  exists f, f2. split; [apply Permutation_rev|]. rewrite N; simpl. repeat split; auto. lra.
Qed.

(** ** C07 *)
Theorem C07_rotation : forall svd1 svd2 arr f1 f2 m,
  lapack svd1 -> lapack svd2 -> orthonormal m ->
  PCAOrientation svd1 arr None None = Ok f1 ->
  PCAOrientation svd2 (map (mv m) arr) None None = Ok f2 ->
  p_s f2 = p_s f1 /\ eigenvalues f2 = eigenvalues f1 /\
  center f2 = option_map (mv m) (center f1) /\
  (vz (p_s f1) < vy (p_s f1) -> same_line (mv m (p_normal f1)) (p_normal f2)).
Proof.
  intros svd1 svd2 arr f1 f2 m L1 L2 O F1 F2.
  destruct (rot_fits _ _ _ _ _ _ L1 L2 O F1 F2) as (S & N & C & H).
  unfold eigenvalues. rewrite S, N. repeat split; auto.
Qed.
Example C07_ex : exists f1 f2, orthonormal rot345 /\
  PCAOrientation svd_ref (axis_data 3 2 1) None None = Ok f1 /\
  PCAOrientation svd_ref tilted_data None None = Ok f2 /\ vz (p_s f1) < vy (p_s f1) /\
  p_normal f1 = ez /\ p_normal f2 = V3 (-3/5) 0 (4/5).
Proof.
  destruct tilted_fit as (f & H & N & G & _). destruct example_fit as (f1 & F1 & _ & _ & G1).
  exists f1, f. pose proof (axis_normal _ _ lapack_ref F1). pose proof rot345_orthonormal. auto 10.
Qed.

(** ** C08 *)
Theorem C08_scale : forall svd1 svd2 arr f1 f2 k,
  lapack svd1 -> lapack svd2 -> 0 < k ->
  PCAOrientation svd1 arr None None = Ok f1 ->
  PCAOrientation svd2 (map (vscale k) arr) None None = Ok f2 ->
  p_s f2 = vscale k (p_s f1) /\
  eigenvalues f2 = option_map (vscale (k * k)) (eigenvalues f1) /\
  center f2 = option_map (vscale k) (center f1) /\
  (vz (p_s f1) < vy (p_s f1) -> same_line (p_normal f1) (p_normal f2)).
Proof.
  intros svd1 svd2 arr f1 f2 k L1 L2 K F1 F2.
  destruct (scale_fits _ _ _ _ _ _ L1 L2 K F1 F2) as (S & N & C & H).
  split; auto. split; [|auto].
  rewrite (eig_some _ _ _ L1 F1), (eig_some _ _ _ L2 F2), S, N. simpl. f_equal.
  apply vec3_eq; simpl; unfold Rdiv; ring.
Qed.
Example C08_ex : exists f1 f2,
  PCAOrientation svd_ref (axis_data 3 2 1) None None = Ok f1 /\
  PCAOrientation svd_ref (map (vscale 1000) (axis_data 3 2 1)) None None = Ok f2 /\
  vz (p_s f1) < vy (p_s f1).
Proof.
  destruct example_fit as (f1 & F1 & _ & _ & G1).
  destruct (fit_exists svd_ref (map (vscale 1000) (axis_data 3 2 1)) lapack_ref) as [f2 F2]. { simpl; lia. }
  exists f1, f2; auto.
Qed.

(** ** C09 (also for weighted fits) *)
Theorem C09_normal : forall svd arr w f, lapack svd ->
  PCAOrientation svd arr (Some w) None = Ok f ->
  unit3 (p_normal f) /\ 0 <= vz (p_normal f) /\ same_line (p_normal f) (r2 (p_axes f)) /\
  dot (p_normal f) (r0 (p_axes f)) = 0 /\ dot (p_normal f) (r1 (p_axes f)) = 0 /\
  vz (p_strike f) = 0 /\ dot (p_strike f) (p_normal f) = 0.
Proof.
  intros svd arr w f HL HF.
  destruct (weighted_inv _ _ _ _ HL HF) as (_ & _ & u & s & Hs & _ & _ & _ & _ & _ & _ & _ & D).
  pose proof (svd_v _ _ _ _ Hs) as O. pose proof O as (h00 & h11 & h22 & h01 & h02 & h12).
  pose proof (normal_line f D) as L.
  split; [now apply normal_unit|]. split; [now apply normal_up|]. split; auto.
  split. { rewrite dot_comm. apply (same_line_dot0 _ _ _ L); auto. }
  split. { rewrite dot_comm. apply (same_line_dot0 _ _ _ L); auto. }
  destruct D as (_ & -> & _). split; [vunf; ring | apply dot_cross_l].
Qed.
Corollary C09_normal_unweighted : forall svd arr f, lapack svd ->
  PCAOrientation svd arr None None = Ok f ->
  unit3 (p_normal f) /\ 0 <= vz (p_normal f) /\ same_line (p_normal f) (r2 (p_axes f)) /\
  dot (p_normal f) (r0 (p_axes f)) = 0 /\ dot (p_normal f) (r1 (p_axes f)) = 0 /\
  vz (p_strike f) = 0 /\ dot (p_strike f) (p_normal f) = 0.
Proof. intros svd arr f HL HF. exact (C09_normal svd arr ones f HL HF). Qed.
Example C09_ex : exists f, PCAOrientation svd_ref tilted_data (Some (V3 1 2 3)) None = Ok f.
Proof.
  destruct (too_few svd_ref tilted_data (Some (V3 1 2 3))) as [_ X].
  { intros u E. injection E as <-. simpl. lra. } apply X. simpl; lia.
Qed.

(** ** C10 *)
Theorem C10_dip_dr : forall svd arr w f, lapack svd ->
  PCAOrientation svd arr (Some w) None = Ok f ->
  (vx (p_normal f) = 0 /\ vy (p_normal f) = 0 -> p_dip_dr f = None) /\
  (~ (vx (p_normal f) = 0 /\ vy (p_normal f) = 0) ->
     exists d, p_dip_dr f = Some d /\ unit3 d /\ dot d (p_normal f) = 0 /\
       dot d (p_strike f) = 0 /\ 0 < vz d).
Proof.
  intros svd arr w f HL HF.
  destruct (C09_normal _ _ _ _ HL HF) as (Un & _).
  destruct (weighted_inv _ _ _ _ HL HF) as (_ & _ & u & s & Hs & _ & _ & _ & _ & _ & _ & _ & D).
  destruct D as (_ & E1 & E2). rewrite E2, E1. exact (dip_dr_spec _ Un).
Qed.
Example C10_ex : exists f, PCAOrientation svd_ref tilted_data (Some ones) None = Ok f /\
  ~ (vx (p_normal f) = 0 /\ vy (p_normal f) = 0).
Proof.
  destruct tilted_fit as (f & H & N & _). exists f. split; [exact H|]. rewrite N; simpl. lra.
Qed.
Example C10_ex_horizontal : exists f,
  PCAOrientation svd_ref (axis_data 3 2 1) (Some ones) None = Ok f /\ p_dip_dr f = None.
Proof.
  destruct example_fit as (f & F & _). exists f. split; [exact F|].
  apply (proj1 (C10_dip_dr _ _ ones _ lapack_ref F)).
  rewrite (axis_normal _ _ lapack_ref F). split; reflexivity.
Qed.

(** ** C11, C12 *)
Theorem C11_strike_dip_range : forall svd arr w f, lapack svd ->
  PCAOrientation svd arr (Some w) None = Ok f ->
  exists s d, strike_dip f = Some (s, d) /\ 0 <= d <= 90 /\ 0 <= s < 360.
Proof.
  intros svd arr w f HL HF.
  destruct (weighted_inv _ _ _ _ HL HF) as (_ & _ & u & s & Hs & _).
  destruct (strike_dip_of_spec _ (orthonormal_unit2 _ (svd_v _ _ _ _ Hs))) as (s' & d & E & ? & ? & _).
  exists s', d; auto.
Qed.
Theorem C12_strike_dip_plane : forall svd arr w f, lapack svd ->
  PCAOrientation svd arr (Some w) None = Ok f ->
  forall s d, strike_dip f = Some (s, d) -> plane_normal s d = p_normal f.
Proof.
  intros svd arr w f HL HF s d E.
  destruct (weighted_inv _ _ _ _ HL HF) as (_ & _ & u & s0 & Hs & _ & _ & _ & _ & _ & _ & _ & D).
  destruct (strike_dip_of_spec _ (orthonormal_unit2 _ (svd_v _ _ _ _ Hs))) as (s' & d' & E' & _ & _ & P).
  unfold strike_dip in E. rewrite E in E'. injection E' as <- <-.
  rewrite P. destruct D as (X & _). unfold p_normal. rewrite X. unfold derived_normal.
  destruct (Rlt_dec _ _); reflexivity.
Qed.
(** the specification's plane is spanned by the strike line and the down-dip
    vector, so "the plane with strike s and dip d" means what users mean *)
Theorem C12_spec_sanity : forall s d,
  unit3 (plane_normal s d) /\ dot (plane_normal s d) (azimuth_vec s) = 0 /\
  dot (plane_normal s d) (down_dip s d) = 0 /\ vz (down_dip s d) = - sin (radians d) /\
  plane_normal s d = V3 (sin (radians d) * cos (radians s)) (- (sin (radians d) * sin (radians s)))
                        (cos (radians d)).
Proof.
  intros s d. split; [apply plane_normal_unit|].
  pose proof (plane_normal_components s d) as E.
  split. { rewrite E. unfold azimuth_vec. vunf. ring. }
  split. { rewrite plane_normal_eq. unfold down_dip, azimuth_vec. rewrite radians_plus, radians_90. vunf.
    pose proof (sincos1 (radians s + PI / 2)) as P.
    transitivity (sin (radians d) * cos (radians d) *
      (sin (radians s + PI / 2) * sin (radians s + PI / 2) + cos (radians s + PI / 2) * cos (radians s + PI / 2) - 1)).
    { ring. } rewrite P. ring. }
  split; auto. unfold down_dip, azimuth_vec. vunf. ring.
Qed.
Example C12_ex : exists f s d, PCAOrientation svd_ref tilted_data (Some ones) None = Ok f /\
  strike_dip f = Some (s, d) /\ 0 < d < 90 /\ plane_normal s d = V3 (-3/5) 0 (4/5).
Proof.
  destruct tilted_fit as (f & H & N & _).
  destruct (C11_strike_dip_range _ _ ones _ lapack_ref H) as (s & d & E & Hd & Hs).
  exists f, s, d. split; [exact H|]. split; auto.
  pose proof (C12_strike_dip_plane _ _ ones _ lapack_ref H s d E) as P. rewrite N in P.
  split; auto. rewrite plane_normal_components in P. injection P as P1 P2 P3.
  split.
  - destruct (Req_EM_T d 0); [|lra]. subst d. rewrite radians_0, cos_0 in P3. lra.
  - destruct (Req_EM_T d 90); [|lra]. subst d. rewrite radians_90, cos_PI2 in P3. lra.
Qed.

(** ** C13 *)
Theorem C13_sign_independent : forall svd1 svd2 arr w1 w2 f1 f2 s1 d1 s2 d2,
  lapack svd1 -> lapack svd2 ->
  PCAOrientation svd1 arr (Some w1) None = Ok f1 -> PCAOrientation svd2 arr (Some w2) None = Ok f2 ->
  same_line (r2 (p_axes f1)) (r2 (p_axes f2)) ->
  strike_dip f1 = Some (s1, d1) -> strike_dip f2 = Some (s2, d2) ->
  d2 = d1 /\ (0 < d1 < 90 -> s2 = s1) /\
  (d1 = 90 -> s2 = s1 \/ s2 = s1 + 180 \/ s2 = s1 - 180) /\
  (d1 = 0 -> (s1 = 270 \/ s1 = 90) /\ (s2 = 270 \/ s2 = 90)).
Proof.
  intros svd1 svd2 arr w1 w2 f1 f2 s1 d1 s2 d2 L1 L2 F1 F2 SL E1 E2.
  destruct (weighted_inv _ _ _ _ L1 F1) as (_ & _ & u1 & t1 & S1 & _).
  pose proof (orthonormal_unit2 _ (svd_v _ _ _ _ S1)) as U1.
  unfold strike_dip in *.
  assert (U1' : unit3 (vneg (r2 (p_axes f1)))) by (unfold unit3; rewrite nrm2_neg; exact U1).
  destruct (strike_dip_of_spec _ U1') as (s' & d' & E' & _).
  destruct (strike_dip_sign _ _ _ _ _ U1 E1 E') as (A & B & C & D).
  apply same_line_sym in SL. destruct SL as [H|H]; rewrite H in E2.
  - rewrite E1 in E2. injection E2 as <- <-. repeat split; auto.
    + destruct D as [D|D]; auto; tauto. + destruct D as [D|D]; auto; tauto.
  - rewrite E' in E2. injection E2 as <- <-. repeat split; auto.
    + destruct D as [D|D]; auto; tauto. + destruct D as [D|D]; auto; tauto.
Qed.
(** hence any two decompositions of data with a gap agree *)
Theorem C13_any_two_decompositions : forall svd1 svd2 arr f1 f2 s1 d1 s2 d2,
  lapack svd1 -> lapack svd2 ->
  PCAOrientation svd1 arr None None = Ok f1 -> PCAOrientation svd2 arr None None = Ok f2 ->
  vz (p_s f1) < vy (p_s f1) ->
  strike_dip f1 = Some (s1, d1) -> strike_dip f2 = Some (s2, d2) ->
  d2 = d1 /\ (0 < d1 < 90 -> s2 = s1).
Proof.
  intros svd1 svd2 arr f1 f2 s1 d1 s2 d2 L1 L2 F1 F2 G E1 E2.
  destruct (perm_fits _ _ _ _ _ _ L1 L2 (Permutation_refl arr) F1 F2) as (_ & _ & _ & N).
  specialize (N G).
  destruct (fit_inv _ _ _ L1 F1) as (_ & u1 & m1 & _ & _ & _ & _ & _ & _ & _ & D1).
  destruct (fit_inv _ _ _ L2 F2) as (_ & u2 & m2 & _ & _ & _ & _ & _ & _ & _ & D2).
  assert (SL : same_line (r2 (p_axes f1)) (r2 (p_axes f2))).
  { eapply same_line_trans. { apply same_line_sym, normal_line; auto. }
    eapply same_line_trans. { exact N. } now apply normal_line. }
  destruct (C13_sign_independent _ _ _ ones ones _ _ _ _ _ _ L1 L2 F1 F2 SL E1 E2) as (A & B & _). auto.
Qed.
(** the exact values for the two ambiguous cases *)
Theorem C13_negated_axis : forall n s d s' d', unit3 n ->
  strike_dip_of n = Some (s, d) -> strike_dip_of (vneg n) = Some (s', d') ->
  d' = d /\ (0 < d < 90 -> s' = s) /\ (d = 90 -> s' = s + 180 \/ s' = s - 180) /\
  (d = 0 -> (s = 270 /\ s' = 90) \/ (s = 90 /\ s' = 270)).
Proof. exact strike_dip_sign. Qed.
Example C13_ex : strike_dip_of (V3 0 0 1) = Some (270, 0) /\ strike_dip_of (vneg (V3 0 0 1)) = Some (90, 0).
Proof.
  split. { exact strike_dip_horizontal_up. }
  replace (vneg (V3 0 0 1)) with (V3 0 0 (-1)) by (apply vec3_eq; vunf; ring).
  exact strike_dip_horizontal_down.
Qed.

(** ** C14 *)
Theorem C14_dip_direction : forall svd arr w f, lapack svd ->
  PCAOrientation svd arr (Some w) None = Ok f ->
  exists a d s, dip_direction f = Some (a, d) /\ strike_dip f = Some (s, d) /\
    90 <= a < 450 /\ (a < 360 <-> s < 270) /\
    (* the horizontal part of the upward normal points to azimuth a *)
    V3 (vx (p_normal f)) (vy (p_normal f)) 0 = vscale (sin (radians d)) (azimuth_vec a).
Proof.
  intros svd arr w f HL HF.
  destruct (C11_strike_dip_range _ _ _ _ HL HF) as (s & d & E & Hd & Hs).
  exists (s + 90), d, s. unfold dip_direction. rewrite E. repeat split; auto; try lra.
  rewrite <- (C12_strike_dip_plane _ _ _ _ HL HF s d E).
  unfold plane_normal. apply vec3_eq; vunf; ring.
Qed.
(** a strike of 270 or more does occur *)
Example C14_ex : exists f a d, PCAOrientation svd_ref tilted_data (Some ones) None = Ok f /\
  dip_direction f = Some (a, d).
Proof.
  destruct tilted_fit as (f & H & _).
  destruct (C14_dip_direction _ _ ones _ lapack_ref H) as (a & d & s & E & _). exists f, a, d; auto.
Qed.
Example C14_ex_not_normalised : strike_dip_of (V3 0 0 1) = Some (270, 0).
Proof. exact strike_dip_horizontal_up. Qed.

(** ** C15 *)
Theorem C15_gradient : forall svd arr w f, lapack svd ->
  PCAOrientation svd arr (Some w) None = Ok f ->
  exists az sl s d, gradient f = (az, Some sl) /\ strike_dip f = Some (s, d) /\
   (0 <= vz (r2 (p_axes f)) -> degrees sl = d /\ cong360 (degrees az) (s + 90)) /\
   (vz (r2 (p_axes f)) < 0 -> degrees sl = 180 - d /\ cong360 (degrees az) (s + 90 + 180)).
Proof.
  intros svd arr w f HL HF.
  destruct (weighted_inv _ _ _ _ HL HF) as (_ & _ & u1 & t1 & S1 & _).
  pose proof (orthonormal_unit2 _ (svd_v _ _ _ _ S1)) as U1.
  destruct (C11_strike_dip_range _ _ _ _ HL HF) as (s & d & E & Hd & Hs).
  destruct (strike_dip_raw _ _ _ U1 E) as [A B].
  unfold gradient, slope, azimuth, coefficients.
  destruct (Req_EM_T _ 0) as [h|h]. { rewrite norm_unit in h; auto; lra. }
  do 4 eexists. split; [reflexivity|]. split; [exact E|]. split.
  - intros H. destruct (A H) as [A1 A2]. split; auto.
  - intros H. destruct (B H) as [B1 B2]. split; auto. lra.
Qed.
Example C15_ex : unit3 (V3 (3/5) 0 (-4/5)) /\ vz (V3 (3/5) 0 (-4/5)) < 0.
Proof. unfold unit3; vunf; lra. Qed.

(** ** C16 *)
Theorem C16_rake : forall svd arr w f d, lapack svd ->
  PCAOrientation svd arr (Some w) None = Ok f -> p_dip_dr f = Some d ->
  exists r, rake f = Some r /\ 0 <= r <= 180 /\ cos (radians r) = dot d (r0 (p_axes f)).
Proof.
  intros svd arr w f d HL HF Ed.
  destruct (weighted_inv _ _ _ _ HL HF) as (_ & _ & u1 & t1 & S1 & _).
  destruct (svd_v _ _ _ _ S1) as (U0 & _).
  assert (Ud : unit3 d).
  { destruct (C10_dip_dr _ _ _ _ HL HF) as [A B].
    destruct (Req_EM_T (vx (p_normal f)) 0) as [x|x]; [destruct (Req_EM_T (vy (p_normal f)) 0) as [y|y]|].
    - rewrite A in Ed by auto. discriminate.
    - destruct B as (d' & E' & U & _); [tauto|]. congruence.
    - destruct B as (d' & E' & U & _); [tauto|]. congruence. }
  destruct (vangle_unit d (r0 (p_axes f)) Ud U0) as (t & E & B & C).
  exists (degrees t). unfold rake. rewrite Ed, E. split; auto. split.
  - rewrite <- degrees_0, <- degrees_PI. split; apply degrees_le; lra.
  - rewrite radians_degrees. exact C.
Qed.
Theorem C16_rake_sign : forall svd1 svd2 arr w f1 f2 r1,
  lapack svd1 -> lapack svd2 ->
  PCAOrientation svd1 arr (Some w) None = Ok f1 -> PCAOrientation svd2 arr (Some w) None = Ok f2 ->
  p_normal f1 = p_normal f2 -> r0 (p_axes f2) = vneg (r0 (p_axes f1)) ->
  rake f1 = Some r1 -> rake f2 = Some (180 - r1).
Proof.
  intros svd1 svd2 arr w f1 f2 r1 L1 L2 F1 F2 EN EA ER.
  destruct (weighted_inv _ _ _ _ L1 F1) as (_ & _ & u1 & t1 & S1 & _ & _ & _ & _ & _ & _ & _ & (_ & X1 & Y1)).
  destruct (weighted_inv _ _ _ _ L2 F2) as (_ & _ & u2 & t2 & S2 & _ & _ & _ & _ & _ & _ & _ & (_ & X2 & Y2)).
  destruct (svd_v _ _ _ _ S1) as (U0 & _).
  unfold rake in *. assert (ED : p_dip_dr f2 = p_dip_dr f1) by (rewrite Y2, Y1, X2, X1, EN; auto).
  rewrite ED, EA. destruct (p_dip_dr f1) as [d|] eqn:Ed; [|discriminate].
  assert (Ud : unit3 d).
  { destruct (C10_dip_dr _ _ _ _ L1 F1) as [A B].
    destruct (Req_EM_T (vx (p_normal f1)) 0) as [x|x]; [destruct (Req_EM_T (vy (p_normal f1)) 0) as [y|y]|].
    - rewrite A in Ed by auto. discriminate.
    - destruct B as (d' & E' & U & _); [tauto|]. congruence.
    - destruct B as (d' & E' & U & _); [tauto|]. congruence. }
  rewrite vangle_neg by auto. destruct (vangle d (r0 (p_axes f1))) as [t|]; [|discriminate].
  simpl in *. injection ER as <-. rewrite degrees_minus, degrees_PI. reflexivity.
Qed.
Example C16_ex : exists f d, PCAOrientation svd_ref tilted_data (Some ones) None = Ok f /\
  p_dip_dr f = Some d /\ 0 < vz d.
Proof.
  destruct tilted_fit as (f & H & N & _).
  destruct (proj2 (C10_dip_dr _ _ ones _ lapack_ref H)) as (d & E & _ & _ & _ & P).
  { rewrite N; simpl; lra. } exists f, d; auto.
Qed.

(** ** C17 *)
Theorem C17_despinning : forall svd arr f, lapack svd ->
  PCAOrientation svd arr None None = Ok f ->
  (forall p q, In p (centered_array f) -> In q (centered_array f) ->
     norm (vsub (mv (p_axes f) p) (mv (p_axes f) q)) = norm (vsub p q)) /\
  rotated f = map (mv (p_axes f)) (centered_array f) /\
  map (fun q => vm q (p_axes f)) (rotated f) = centered_array f /\
  sumf (fun q => vx q * vx q) (rotated f) = vx (p_s f) * vx (p_s f) /\
  sumf (fun q => vy q * vy q) (rotated f) = vy (p_s f) * vy (p_s f) /\
  sumf (fun q => vz q * vz q) (rotated f) = vz (p_s f) * vz (p_s f) /\
  sumf (fun q => vx q * vy q) (rotated f) = 0 /\
  sumf (fun q => vx q * vz q) (rotated f) = 0 /\
  sumf (fun q => vy q * vz q) (rotated f) = 0.
Proof.
  intros svd arr f HL HF.
  refine (conj (rotated_isometry svd arr f HL HF) (conj eq_refl (conj (rotated_back svd arr f HL HF) _))).
  exact (rotated_moments svd arr f HL HF).
Qed.

(** ** C18, C19 *)
Theorem C18_eigenvalues_are_variances : forall svd arr f, lapack svd ->
  PCAOrientation svd arr None None = Ok f ->
  exists e, eigenvalues f = Some e /\
  vx e = var_along (r0 (p_axes f)) arr /\ vy e = var_along (r1 (p_axes f)) arr /\
  vz e = var_along (r2 (p_axes f)) arr /\
  0 <= vz e <= vy e /\ vy e <= vx e /\
  vx e + vy e + vz e = var_along ex arr + var_along ey arr + var_along ez arr.
Proof. exact eig_is_var. Qed.
Theorem C19_greatest_variance : forall svd arr f, lapack svd ->
  PCAOrientation svd arr None None = Ok f ->
  (forall d, unit3 d -> var_along d arr <= var_along (r0 (p_axes f)) arr) /\
  (forall d, unit3 d -> dot d (r0 (p_axes f)) = 0 -> var_along d arr <= var_along (r1 (p_axes f)) arr).
Proof.
  intros svd arr f HL HF. split.
  - exact (first_axis_max svd arr f HL HF). - exact (second_axis_max svd arr f HL HF).
Qed.
Example C18_ex : exists f e, PCAOrientation svd_ref (axis_data 3 2 1) None None = Ok f /\
  eigenvalues f = Some e /\ vx e = 18 / 5 /\ vz e = 2 / 5.
Proof.
  destruct example_fit as (f & F & S & _).
  exists f. eexists. split; auto. split; [exact (eig_some _ _ _ lapack_ref F)|].
  destruct (fit_inv _ _ _ lapack_ref F) as (_ & u & m & _ & _ & _ & _ & _ & _ & En & _).
  assert (S2 : sqrt 2 * sqrt 2 = 2) by (apply sqrt_sqrt; lra).
  rewrite S, En. simpl. split.
  - replace (sqrt 2 * 3 * (sqrt 2 * 3)) with (sqrt 2 * sqrt 2 * 9) by ring. rewrite S2. field.
  - replace (sqrt 2 * 1 * (sqrt 2 * 1)) with (sqrt 2 * sqrt 2) by ring. rewrite S2. field.
Qed.

(** ** C20 *)
Theorem C20_reconstruction : forall svd arr f, lapack svd ->
  PCAOrientation svd arr None None = Ok f ->
  exists u, U f = Some u /\ orthonormal_cols u /\
    reconstructs u (p_s f) (p_axes f) (centered_array f).
Proof. exact fit_reconstructs. Qed.
Theorem C20_reloaded : forall svd svd' arr f, lapack svd ->
  PCAOrientation svd arr None None = Ok f -> 0 < vz (p_s f) ->
  exists g u, PCAOrientation svd' arr None (Some (principal_axes f)) = Ok g /\
    U g = Some u /\ orthonormal_cols u /\ reconstructs u (p_s g) (p_axes g) (centered_array g).
Proof.
  intros svd svd' arr f HL HF Hp. destruct (reload_ok svd svd' arr f HL HF Hp) as [E EU].
  destruct (fit_reconstructs _ _ _ HL HF) as (u & U1 & O & R).
  exists (forget_U f), u. rewrite EU. repeat split; auto; apply O.
Qed.

(** ** C21, C22 *)
Theorem C21_saved_axes_round_trip : forall svd svd' arr f, lapack svd ->
  PCAOrientation svd arr None None = Ok f -> 0 < vz (p_s f) ->
  exists g, PCAOrientation svd' arr None (Some (principal_axes f)) = Ok g /\
    p_axes g = p_axes f /\ p_s g = p_s f /\ p_normal g = p_normal f /\
    strike_dip g = strike_dip f /\ rake g = rake f /\ eigenvalues g = eigenvalues f /\
    p_n g = p_n f /\ center g = center f /\ principal_axes g = principal_axes f /\ U g = U f /\
    p_dip_dr g = p_dip_dr f.
Proof.
  intros svd svd' arr f HL HF Hp. destruct (reload_ok svd svd' arr f HL HF Hp) as [E EU].
  exists (forget_U f). repeat split; auto.
Qed.
Example C21_ex : exists f, PCAOrientation svd_ref tilted_data None None = Ok f /\ 0 < vz (p_s f).
Proof. destruct tilted_fit as (f & H & _ & _ & P). exists f; auto. Qed.
Theorem C22_exact_planes_do_not_reload : forall svd svd' arr f, lapack svd ->
  PCAOrientation svd arr None None = Ok f ->
  (PCAOrientation svd' arr None (Some (principal_axes f)) = NonFinite <-> coplanar arr).
Proof. exact reload_iff. Qed.
Example C22_ex : exists f, PCAOrientation svd_ref (axis_data 3 2 0) None None = Ok f /\
  coplanar (axis_data 3 2 0).
Proof. destruct example_coplanar_fit as (f & H & _ & C). exists f; auto. Qed.

(** ** C23, C24 *)
Theorem C23_uniform_weights : forall svd svd' arr w f f', lapack svd -> lapack svd' -> 0 < w ->
  PCAOrientation svd arr (Some (V3 w w w)) None = Ok f ->
  PCAOrientation svd' arr None None = Ok f' ->
  p_s f = p_s f' /\ center f = center f' /\
  (exists u, U f = Some u /\ is_svd (centered_array f) u (p_s f) (p_axes f)) /\
  (vz (p_s f') < vy (p_s f') -> same_line (p_normal f) (p_normal f')).
Proof. exact uniform_weights. Qed.
Example C23_ex : exists f f', PCAOrientation svd_ref tilted_data (Some (V3 7 7 7)) None = Ok f /\
  PCAOrientation svd_ref tilted_data None None = Ok f' /\ vz (p_s f') < vy (p_s f').
Proof.
  destruct tilted_fit as (f' & H & _ & G & _).
  destruct (too_few svd_ref tilted_data (Some (V3 7 7 7))) as [_ X].
  { intros u E. injection E as <-. simpl. lra. } destruct X as [f F]. { simpl; lia. } exists f, f'; auto.
Qed.
Theorem C24_weighted : forall svd arr w f, lapack svd ->
  PCAOrientation svd arr (Some w) None = Ok f ->
  exists u s, U f = Some u /\
    is_svd (map (fun p => vdiv p w) (centered_array f)) u s (p_axes f) /\ p_s f = vmul s w.
Proof. exact weighted_spec. Qed.
Theorem C24_reconstruction_refuted : forall svd, lapack svd ->
  exists arr w f u, vx w > 0 /\ vy w > 0 /\ vz w > 0 /\
    PCAOrientation svd arr (Some w) None = Ok f /\ U f = Some u /\
    ~ reconstructs u (p_s f) (p_axes f) (centered_array f).
Proof.
  intros svd HL. exists cross_data, (V3 10 1 1).
  destruct (too_few svd cross_data (Some (V3 10 1 1))) as [_ X].
  { intros u E. injection E as <-. simpl. lra. } destruct X as [f F]. { simpl; lia. }
  destruct (weighted_spec _ _ _ _ HL F) as (u & s & EU & _). exists f, u.
  split; [simpl; lra|]. split; [simpl; lra|]. split; [simpl; lra|]. split; auto. split; auto.
  exact (weighted_no_reconstruct svd f u HL F EU).
Qed.
Theorem C24_sorted_refuted : forall svd, lapack svd ->
  exists arr w f, vx w > 0 /\ vy w > 0 /\ vz w > 0 /\
    PCAOrientation svd arr (Some w) None = Ok f /\ vx (p_s f) < vy (p_s f).
Proof.
  intros svd HL. exists box_data, (V3 1 10 1).
  destruct (too_few svd box_data (Some (V3 1 10 1))) as [_ X].
  { intros u E. injection E as <-. simpl. lra. } destruct X as [f F]. { simpl; lia. }
  exists f. split; [simpl; lra|]. split; [simpl; lra|]. split; [simpl; lra|]. split; auto.
  exact (weighted_unsorted svd f HL F).
Qed.

(** ** C25, C26, C89: histories of calls on one object *)
Theorem C25_calls_keep_geometry : forall svd arr f cs, lapack svd ->
  PCAOrientation svd arr None None = Ok f ->
  let g := run_calls f cs in
  p_normal g = p_normal f /\ center g = center f /\ residuals g = residuals f /\
  eigenvalues g = eigenvalues f /\ p_s g = p_s f /\
  (p_axes g = p_axes f \/ p_axes g = mneg (p_axes f)) /\
  (forall s d, strike_dip f = Some (s, d) ->
     exists s', strike_dip g = Some (s', d) /\ (d <> 0 -> s' = s)).
Proof.
  intros svd arr f cs HL HF.
  destruct (fit_inv _ _ _ HL HF) as (_ & u & m & Hs & _ & _ & _ & _ & _ & _ & D).
  exact (history_geometry f cs (good_derived f D) (svd_v _ _ _ _ Hs)).
Qed.
Theorem C26_identifier : forall svd arr f cs, lapack svd ->
  PCAOrientation svd arr None None = Ok f -> existsb flipping cs = true ->
  (principal_axes (run_calls f cs) = principal_axes f <->
     0 <= vz (r2 (p_axes f)) \/ p_s f = vzero) /\
  (vz (r2 (p_axes f)) < 0 -> principal_axes (run_calls f cs) = mneg (principal_axes f)) /\
  (forall cs', principal_axes (run_calls f (cs ++ cs')) = principal_axes (run_calls f cs)).
Proof.
  intros svd arr f cs HL HF E.
  destruct (fit_inv _ _ _ HL HF) as (_ & u & m & Hs & _ & _ & _ & _ & _ & _ & D).
  pose proof (good_derived f D) as G.
  split. { exact (history_hash_iff f cs G (svd_v _ _ _ _ Hs) E). }
  split. { intros H. rewrite history_hash_value, E by auto. destruct (Rlt_dec _ _); [auto | lra]. }
  intros cs'. exact (history_hash_stable f cs cs' G E).
Qed.
Theorem C26_other_calls : forall svd arr f cs, lapack svd ->
  PCAOrientation svd arr None None = Ok f -> existsb flipping cs = false ->
  principal_axes (run_calls f cs) = principal_axes f.
Proof.
  intros svd arr f cs HL HF E.
  destruct (fit_inv _ _ _ HL HF) as (_ & u & m & Hs & _ & _ & _ & _ & _ & _ & D).
  rewrite history_hash_value, E by (now apply good_derived). reflexivity.
Qed.
Theorem C89_cached_U_is_stale : forall svd arr f cs, lapack svd ->
  PCAOrientation svd arr None None = Ok f ->
  let g := run_calls f cs in
  exists u, U g = Some u /\ reconstructs u (p_s g) (p_axes g)
    (if existsb flipping cs then
       if Rlt_dec (vz (r2 (p_axes f))) 0 then map vneg (centered_array g) else centered_array g
     else centered_array g).
Proof. exact history_reconstruct. Qed.

(** the hypotheses of C25/C26/C89 with a downward third axis are met: an SVD
    routine that returns a downward third vector for some data *)
Definition svd_down (a : list vec3) : list vec3 * vec3 * mat3 :=
  let '(u, s, v) := svd_ref a in
  if Rlt_dec 0 (vz (r2 v)) then
    (map (fun p => V3 (vx p) (vy p) (- vz p)) u, s, M3 (r0 v) (r1 v) (vneg (r2 v)))
  else (u, s, v).
Lemma svd_down_ok : lapack svd_down.
Proof.
  intros a Ha. pose proof (svd_ref_ok a Ha) as H. unfold svd_ok_on, svd_down in *.
  destruct (svd_ref a) as [[u s] v]. destruct (Rlt_dec _ _); auto.
  destruct H. destruct svd_v as (h00 & h11 & h22 & h01 & h02 & h12).
  constructor; auto; rewrite ?sumf_map; simpl.
  - rewrite svd_fact, map_map. apply map_ext. intros []. destruct v as [[] [] []], s.
    apply vec3_eq; munf; ring.
  - auto.
  - auto.
  - rewrite (sumf_ext _ _ (fun p => vz p * vz p)); auto. intros; ring.
  - auto.
  - rewrite (sumf_ext _ _ (fun p => (-1) * (vx p * vz p))). { rewrite sumf_scal, svd_u02. ring. } intros; ring.
  - rewrite (sumf_ext _ _ (fun p => (-1) * (vy p * vz p))). { rewrite sumf_scal, svd_u12. ring. } intros; ring.
  - unfold orthonormal; simpl. rewrite !dot_neg_l, !dot_neg_r. repeat split; lra.
Qed.
Example C26_ex : exists f, PCAOrientation svd_down tilted_data None None = Ok f /\
  vz (r2 (p_axes f)) < 0 /\ p_s f <> vzero /\
  principal_axes (run_calls f [CStrikeDip; CAsConic; CRake]) <> principal_axes f.
Proof.
  destruct tilted_fit as (f0 & F0 & N0 & G0 & P0).
  destruct (fit_exists svd_down tilted_data svd_down_ok) as [f F]. { simpl; lia. }
  exists f. split; auto.
  destruct (perm_fits _ _ _ _ _ _ lapack_ref svd_down_ok (Permutation_refl _) F0 F) as (S & _ & _ & N).
  specialize (N G0). rewrite N0 in N.
  destruct (fit_inv _ _ _ svd_down_ok F) as (_ & u & m & Hs & _ & _ & _ & _ & _ & _ & D).
  assert (Z : vz (r2 (p_axes f)) < 0).
  { assert (X : vz (r2 (p_axes f)) <= 0).
    { unfold PCAOrientation, run_svd in F. rewrite centered_length in F.
      change ((length tilted_data <? 3)%nat) with false in F. rewrite has_zero_ones in F.
      unfold svd_down in F. destruct (svd_ref _) as [[u' s'] v'].
      destruct (Rlt_dec _ _); injection F as <-; simpl in *; lra. }
    destruct (same_line_trans _ _ _ N (normal_line f D)) as [H|H].
    - rewrite <- H in X. simpl in X. lra.
    - assert (Y : vz (V3 (-3/5) 0 (4/5)) = - vz (r2 (p_axes f))) by (rewrite H; reflexivity). simpl in Y. lra. }
  assert (NZ : p_s f <> vzero).
  { intros H. rewrite H in S. rewrite <- S in P0. simpl in P0. lra. }
  split; auto. split; auto.
  destruct (C26_identifier _ _ _ [CStrikeDip; CAsConic; CRake] svd_down_ok F eq_refl) as [[H _] _].
  intros E. destruct (H E); [lra | contradiction].
Qed.

Print Assumptions C01_total_least_squares.
Print Assumptions C01_unique_when_gap.
Print Assumptions C02_residual_sum.
Print Assumptions C02_residual_vectors.
Print Assumptions C03_translation.
Print Assumptions C03_observables.
Print Assumptions C04_centering.
Print Assumptions C04_differences.
Print Assumptions C05_too_few_points.
Print Assumptions C06_row_order.
Print Assumptions C07_rotation.
Print Assumptions C08_scale.
Print Assumptions C09_normal.
Print Assumptions C10_dip_dr.
Print Assumptions C11_strike_dip_range.
Print Assumptions C12_strike_dip_plane.
Print Assumptions C12_spec_sanity.
Print Assumptions C13_sign_independent.
Print Assumptions C13_any_two_decompositions.
Print Assumptions C13_negated_axis.
Print Assumptions C14_dip_direction.
Print Assumptions C15_gradient.
Print Assumptions C16_rake.
Print Assumptions C16_rake_sign.
Print Assumptions C17_despinning.
Print Assumptions C18_eigenvalues_are_variances.
Print Assumptions C19_greatest_variance.
Print Assumptions C20_reconstruction.
Print Assumptions C20_reloaded.
Print Assumptions C21_saved_axes_round_trip.
Print Assumptions C22_exact_planes_do_not_reload.
Print Assumptions C23_uniform_weights.
Print Assumptions C24_weighted.
Print Assumptions C24_reconstruction_refuted.
Print Assumptions C24_sorted_refuted.
Print Assumptions C25_calls_keep_geometry.
Print Assumptions C26_identifier.
Print Assumptions C26_other_calls.
Print Assumptions C89_cached_U_is_stale.
