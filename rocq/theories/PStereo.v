(** Properties C54-C59, C96-C101: error surfaces on the stereonet. *)
From Coq Require Import Reals Lra Lia List Psatz Arith String.
From Verif Require Import RVec Trig SpecPlane MPca LSvd LPca LFit LAngles LFit2 LExamples MAxes LAxes MSphere MRecon LRecon PRecon MStereo SpecStereo.
Import ListNotations.
Notation length := List.length.
Open Scope R_scope.

(** * Lemmas *)
Lemma norm_vadd_scale : forall k v, 0 < k -> norm (vscale k v) = k * norm v.
Proof. intros. rewrite norm_scale, Rabs_right; lra. Qed.

Lemma cart2sph_dir : forall v, v <> vzero ->
  exists p, cart2sph v = Some p /\ sph2cart p = vscale (/ norm v) v.
Proof.
  intros v H. assert (P : 0 < norm v).
  { pose proof (norm_nonneg v). destruct (Req_dec (norm v) 0) as [h|h]; [|lra].
    apply norm_zero_iff in h. contradiction. }
  assert (U : unit3 (vscale (/ norm v) v)).
  { unfold unit3. rewrite nrm2_scale, <- norm_sqr. field. lra. }
  destruct (cart2sph_spec _ U) as (p & E & S). exists p. split; auto.
  revert E. unfold cart2sph. rewrite norm_unit by auto.
  destruct (Req_EM_T 1 0); [lra|]. destruct (Req_EM_T (norm v) 0); [lra|].
  intros E. rewrite <- E. f_equal. f_equal.
  - simpl. rewrite atan2_scale; auto. now apply Rinv_0_lt_compat.
  - simpl. f_equal. field. lra.
Qed.

Lemma cart2sph_scale : forall k v, 0 < k -> cart2sph (vscale k v) = cart2sph v.
Proof.
  intros k v K. unfold cart2sph. rewrite norm_vadd_scale by auto.
  destruct (Req_EM_T (k * norm v) 0), (Req_EM_T (norm v) 0); auto; try nra.
  simpl. rewrite atan2_scale by auto. f_equal. f_equal. f_equal. field. split; lra.
Qed.

Lemma lay_plane_dir : forall tr p v, sph2cart p = lay_plane tr v -> plane_dir tr p = v.
Proof.
  intros tr [lon lat] [x y z] H. unfold sph2cart, lay_plane in H. unfold plane_dir.
  destruct tr; simpl in H; injection H as H1 H2 H3; apply vec3_eq; simpl; lra.
Qed.
Lemma lay_normal_dir : forall tr p v, sph2cart p = lay_normal tr v -> normal_dir tr p = v.
Proof.
  intros tr [lon lat] [x y z] H. unfold sph2cart, lay_normal in H. unfold normal_dir.
  destruct tr; simpl in H; injection H as H1 H2 H3; apply vec3_eq; simpl; lra.
Qed.
Lemma lay_plane_scale : forall tr k v, lay_plane tr (vscale k v) = vscale k (lay_plane tr v).
Proof. intros [|] k [x y z]; apply vec3_eq; simpl; ring. Qed.
Lemma lay_normal_scale : forall tr k v, lay_normal tr (vscale k v) = vscale k (lay_normal tr v).
Proof. intros [|] k [x y z]; apply vec3_eq; simpl; ring. Qed.

(** a positive multiple of a unit vector is plotted as that unit vector *)
Lemma plot_plane : forall tr k v, 0 < k -> unit3 v ->
  exists p, cart2sph (lay_plane tr (vscale k v)) = Some p /\ plane_dir tr p = v.
Proof.
  intros tr k v K U. rewrite lay_plane_scale, cart2sph_scale by auto.
  destruct (cart2sph_spec (lay_plane tr v)) as (p & E & S).
  { unfold unit3 in *. rewrite <- U. destruct tr; vunf; ring. }
  exists p. split; auto. now apply lay_plane_dir.
Qed.
Lemma plot_normal : forall tr k v, 0 < k -> unit3 v ->
  exists p, cart2sph (lay_normal tr (vscale k v)) = Some p /\ normal_dir tr p = v.
Proof.
  intros tr k v K U. rewrite lay_normal_scale, cart2sph_scale by auto.
  destruct (cart2sph_spec (lay_normal tr v)) as (p & E & S).
  { unfold unit3 in *. rewrite <- U. destruct tr; vunf; ring. }
  exists p. split; auto. now apply lay_normal_dir.
Qed.

Lemma linspace_nth : forall n i, (i < n)%nat -> nth_error (linspace2pi n) i = Some (angle_at n i).
Proof.
  intros n i H. unfold linspace2pi, angle_at. rewrite nth_error_map.
  rewrite (nth_error_nth' (seq 0 n) 0%nat) by now rewrite seq_length.
  rewrite seq_nth by auto. simpl. f_equal. destruct (Nat.eqb_spec n 1).
  - subst. replace i with 0%nat by lia. simpl. lra.
  - assert (INR (n - 1) <> 0) by (apply not_0_INR; lia). field. auto.
Qed.
Lemma ellipse_nth : forall n i, (i < n)%nat ->
  nth_error (ellipse n) i = Some (cos (angle_at n i), sin (angle_at n i)).
Proof. intros. unfold ellipse. rewrite nth_error_map, linspace_nth; auto. Qed.
Lemma linspace_length : forall n, length (linspace2pi n) = n.
Proof. intros. unfold linspace2pi. now rewrite map_length, seq_length. Qed.

Lemma spread_pos : forall d0 d1 u, 0 < d0 -> 0 < d1 -> 0 < spread d0 d1 u.
Proof.
  intros d0 d1 u A B. unfold spread. apply sqrt_lt_R0.
  pose proof (sincos1 u) as S.
  destruct (Req_dec (cos u) 0) as [h|h].
  - rewrite h in *. assert (sin u <> 0) by nra. apply hyp_pos. right. nra.
  - apply hyp_pos. left. nra.
Qed.

(** * C57 shape of the sheets *)
Definition side (sheet : string) (axes : mat3) : R :=
  let s := if String.eqb sheet "upper" then 1 else if String.eqb sheet "lower" then -1 else 0 in
  if Rlt_dec 0 (vz (r2 axes)) then - s else s.

Lemma plane_point : forall axes d sheet l tr n i, (i < n)%nat ->
  nth_error (plane_errors axes (mdiag d) sheet l tr n) i =
  Some (cart2sph (lay_plane tr (vm (V3 (vx d * cos (angle_at n i)) (vy d * sin (angle_at n i))
     (side sheet axes * (2 * vz d * l))) axes))).
Proof.
  intros axes d sheet l tr n i H. unfold plane_errors, side.
  destruct (String.eqb sheet "upper"), (String.eqb sheet "lower"), (Rlt_dec 0 (vz (r2 axes)));
    rewrite ?nth_error_map, ellipse_nth by auto; simpl; repeat f_equal; apply vec3_eq; munf; ring.
Qed.

Lemma unit_mix : forall a b h, unit3 a -> unit3 b -> dot a b = 0 ->
  unit3 (vadd (vscale (cos h) a) (vscale (sin h) b)).
Proof.
  intros a b h A B D. unfold unit3, nrm2 in *.
  rewrite dot_add_l, !dot_add_r, !dot_scale_l, !dot_scale_r, (dot_comm b a), A, B, D.
  pose proof (sincos1 h). lra.
Qed.
Lemma cos_sin_atan : forall y x, 0 < x ->
  x = sqrt (x * x + y * y) * cos (atan (y / x)) /\ y = sqrt (x * x + y * y) * sin (atan (y / x)) /\
  0 < sqrt (x * x + y * y).
Proof.
  intros y x X. rewrite <- atan2_pos by auto. assert (P : 0 < sqrt (x * x + y * y)).
  { apply sqrt_lt_R0. nra. }
  rewrite cos_atan2, sin_atan2 by (left; lra). repeat split; auto; field; lra.
Qed.

(** in-plane unit vector towards angle [u] *)
Definition in_plane (axes : mat3) (d0 d1 u : R) : vec3 :=
  vscale (/ spread d0 d1 u) (vadd (vscale (d0 * cos u) (r0 axes)) (vscale (d1 * sin u) (r1 axes))).

Lemma in_plane_ok : forall axes d0 d1 u, orthonormal axes -> 0 < d0 -> 0 < d1 ->
  unit3 (in_plane axes d0 d1 u) /\ dot (in_plane axes d0 d1 u) (r2 axes) = 0.
Proof.
  intros axes d0 d1 u (A & B & C & D & E & F) P Q. pose proof (spread_pos d0 d1 u P Q) as S.
  unfold in_plane. split.
  - unfold unit3, nrm2 in *. rewrite dot_scale_l, dot_scale_r, dot_add_l, !dot_add_r, !dot_scale_l, !dot_scale_r.
    rewrite (dot_comm (r1 axes) (r0 axes)).
    repeat match goal with h : dot _ _ = _ |- _ => rewrite h end.
    assert (T : spread d0 d1 u * spread d0 d1 u = d0 * cos u * (d0 * cos u) + d1 * sin u * (d1 * sin u)).
    { unfold spread. apply sqrt_sqrt. nra. }
    rewrite !Rmult_0_r, !Rmult_1_r.
    replace (d0 * cos u * (d0 * cos u) + 0 + (0 + d1 * sin u * (d1 * sin u))) with (spread d0 d1 u * spread d0 d1 u) by lra.
    field. lra.
  - rewrite dot_scale_l, dot_add_l, !dot_scale_l.
    repeat match goal with h : dot _ _ = _ |- _ => rewrite h end. ring.
Qed.

Lemma sheet_point : forall axes d0 d1 d2 sheet l tr n i, orthonormal axes -> 0 < d0 -> 0 < d1 -> (i < n)%nat ->
  let u := angle_at n i in let h := side sheet axes * half_width d0 d1 d2 l u in
  exists p, nth_error (plane_errors axes (mdiag (V3 d0 d1 d2)) sheet l tr n) i = Some (Some p) /\
    plane_dir tr p = vadd (vscale (cos h) (in_plane axes d0 d1 u)) (vscale (sin h) (r2 axes)).
Proof.
  intros axes d0 d1 d2 sheet l tr n i O P Q I u h. rewrite plane_point by auto. fold u. simpl.
  pose proof (spread_pos d0 d1 u P Q) as S. destruct (in_plane_ok axes d0 d1 u O P Q) as [U D].
  assert (HH : h = atan (side sheet axes * (2 * d2 * l) / spread d0 d1 u)).
  { unfold h, half_width. unfold side.
    destruct (String.eqb sheet "upper"), (String.eqb sheet "lower"), (Rlt_dec 0 (vz (r2 axes)));
      rewrite ?Rmult_1_l, ?Rmult_0_l, ?Ropp_0, ?Rmult_0_l;
      try (unfold Rdiv; rewrite Rmult_0_l, atan_0; ring); auto;
      try (replace (- (1) * (2 * d2 * l) / spread d0 d1 u) with (- (2 * d2 * l / spread d0 d1 u)) by (field; lra));
      try (replace (-1 * (2 * d2 * l) / spread d0 d1 u) with (- (2 * d2 * l / spread d0 d1 u)) by (field; lra));
      try (replace (- -1 * (2 * d2 * l) / spread d0 d1 u) with (2 * d2 * l / spread d0 d1 u) by (field; lra));
      rewrite ?atan_opp; ring. }
  destruct (cos_sin_atan (side sheet axes * (2 * d2 * l)) (spread d0 d1 u) S) as (X & Y & Z).
  rewrite <- HH in X, Y. set (k := sqrt _) in *.
  destruct (plot_plane tr k (vadd (vscale (cos h) (in_plane axes d0 d1 u)) (vscale (sin h) (r2 axes))) Z) as (p & E & N).
  { apply unit_mix; auto. now apply orthonormal_unit2. }
  exists p. split; auto. f_equal. rewrite <- E. f_equal. f_equal.
  rewrite Y. transitivity (vadd (vscale (k * cos h) (in_plane axes d0 d1 u)) (vscale (k * sin h) (r2 axes))).
  2:{ apply vec3_eq; vunf; ring. }
  rewrite <- X. unfold in_plane. apply vec3_eq; munf; field; lra.
Qed.

Lemma half_width_bound : forall d0 d1 d2 l u, - (PI / 2) < half_width d0 d1 d2 l u < PI / 2.
Proof. intros. unfold half_width. pose proof (atan_bound (2 * d2 * l / spread d0 d1 u)). lra. Qed.

Lemma side_up : forall axes, vz (r2 axes) <> 0 ->
  vscale (side "upper" axes) (r2 axes) = vneg (upward axes) /\ vscale (side "lower" axes) (r2 axes) = upward axes /\
  (side "upper" axes = 1 \/ side "upper" axes = -1) /\ side "lower" axes = - side "upper" axes /\
  side "nominal" axes = 0.
Proof.
  intros axes Z. unfold side, upward; simpl.
  destruct (Rlt_dec 0 (vz (r2 axes))), (Rlt_dec (vz (r2 axes)) 0); try lra;
    (split; [|split; [|split; [|split]]]); try (apply vec3_eq; vunf; ring); try lra; auto.
Qed.

Lemma upward_line : forall axes, orthonormal axes -> unit3 (upward axes) /\
  forall v, dot v (r2 axes) = 0 -> dot v (upward axes) = 0.
Proof.
  intros axes O. pose proof (orthonormal_unit2 _ O). unfold upward. destruct (Rlt_dec (vz (r2 axes)) 0); split; auto.
  - unfold unit3. now rewrite nrm2_neg.
  - intros. rewrite dot_neg_r. lra.
Qed.

Theorem C57_sheets : forall axes d0 d1 d2 l tr n i,
  orthonormal axes -> vz (r2 axes) <> 0 -> 0 < d0 -> 0 < d1 -> (i < n)%nat ->
  let u := angle_at n i in let h := half_width d0 d1 d2 l u in
  exists p0 pu pl,
    nth_error (plane_errors axes (mdiag (V3 d0 d1 d2)) "nominal" l tr n) i = Some (Some p0) /\
    nth_error (plane_errors axes (mdiag (V3 d0 d1 d2)) "upper" l tr n) i = Some (Some pu) /\
    nth_error (plane_errors axes (mdiag (V3 d0 d1 d2)) "lower" l tr n) i = Some (Some pl) /\
    vscale (spread d0 d1 u) (plane_dir tr p0) =
      vadd (vscale (d0 * cos u) (r0 axes)) (vscale (d1 * sin u) (r1 axes)) /\
    dot (plane_dir tr p0) (r2 axes) = 0 /\
    plane_dir tr pu = vsub (vscale (cos h) (plane_dir tr p0)) (vscale (sin h) (upward axes)) /\
    plane_dir tr pl = mirror (r2 axes) (plane_dir tr pu) /\
    asin (dot (plane_dir tr pu) (upward axes)) = - h /\
    asin (dot (plane_dir tr pl) (upward axes)) = h.
Proof.
  intros axes d0 d1 d2 l tr n i O Z P Q I u h.
  destruct (sheet_point axes d0 d1 d2 "nominal" l tr n i O P Q I) as (p0 & E0 & D0).
  destruct (sheet_point axes d0 d1 d2 "upper" l tr n i O P Q I) as (pu & E1 & D1).
  destruct (sheet_point axes d0 d1 d2 "lower" l tr n i O P Q I) as (pl & E2 & D2).
  exists p0, pu, pl. fold u in D0, D1, D2. fold h in D0, D1, D2.
  destruct (side_up axes Z) as (U1 & U2 & S1 & S2 & S0).
  destruct (in_plane_ok axes d0 d1 u O P Q) as [U D]. pose proof (spread_pos d0 d1 u P Q) as SP.
  destruct (upward_line axes O) as [UU UD]. pose proof (orthonormal_unit2 _ O) as U3.
  rewrite S0, Rmult_0_l, cos_0, sin_0 in D0.
  assert (D0' : plane_dir tr p0 = in_plane axes d0 d1 u) by (rewrite D0; apply vec3_eq; vunf; ring).
  assert (SS : forall k, sin (k * h) = k * sin h /\ cos (k * h) = cos h -> True) by auto.
  assert (SC : sin (side "upper" axes * h) = side "upper" axes * sin h /\ cos (side "upper" axes * h) = cos h).
  { destruct S1 as [-> | ->]; rewrite ?Rmult_1_l; auto.
    replace (-1 * h) with (- h) by ring. rewrite sin_neg, cos_neg. split; ring. }
  rewrite S2 in D2. replace (- side "upper" axes * h) with (- (side "upper" axes * h)) in D2 by ring.
  rewrite sin_neg, cos_neg in D2. destruct SC as [SC1 SC2]. rewrite SC1, SC2 in D1, D2.
  assert (DU : plane_dir tr pu = vsub (vscale (cos h) (plane_dir tr p0)) (vscale (sin h) (upward axes))).
  { rewrite D1, D0'. rewrite <- (vneg_invol (upward axes)), <- U1. apply vec3_eq; vunf; ring. }
  assert (HB := half_width_bound d0 d1 d2 l u). fold h in HB.
  assert (MU : dot (plane_dir tr pu) (upward axes) = - sin h).
  { rewrite DU, dot_sub_l, !dot_scale_l, D0', UD by auto. unfold unit3, nrm2 in UU. rewrite UU. ring. }
  assert (ML : plane_dir tr pl = mirror (r2 axes) (plane_dir tr pu)).
  { unfold mirror. assert (X : dot (plane_dir tr pu) (r2 axes) = side "upper" axes * sin h).
    { rewrite D1, dot_add_l, !dot_scale_l, D. unfold unit3, nrm2 in U3. rewrite U3. ring. }
    rewrite X, D1, D2. apply vec3_eq; vunf; ring. }
  assert (MM : dot (plane_dir tr pl) (upward axes) = sin h).
  { replace (plane_dir tr pl) with (vadd (vscale (cos h) (plane_dir tr p0)) (vscale (sin h) (upward axes))).
    - rewrite dot_add_l, !dot_scale_l, D0', UD by auto. unfold unit3, nrm2 in UU. rewrite UU. ring.
    - rewrite D2, D0'. rewrite <- U2, S2. apply vec3_eq; vunf; ring. }
  repeat split; auto.
  - rewrite D0'. unfold in_plane. apply vec3_eq; vunf; field; lra.
  - now rewrite D0'.
  - rewrite MU, <- sin_neg. apply asin_sin. lra.
  - rewrite MM. apply asin_sin. lra.
Qed.

Lemma angle_half : forall m i, (0 < m)%nat -> angle_at (2 * m + 1) (i + m) = angle_at (2 * m + 1) i + PI.
Proof.
  intros m i M. unfold angle_at. replace (2 * m + 1 - 1)%nat with (2 * m)%nat by lia.
  rewrite plus_INR, mult_INR. simpl INR. assert (0 < INR m) by (apply lt_0_INR; lia). field. lra.
Qed.

Lemma spread_half : forall d0 d1 u, spread d0 d1 (u + PI) = spread d0 d1 u.
Proof. intros. unfold spread. rewrite neg_cos, neg_sin. f_equal. ring. Qed.

(** Opposite points of the two sheets are antipodal. *)
Theorem C57_antipodal : forall axes d0 d1 d2 l tr m i,
  orthonormal axes -> vz (r2 axes) <> 0 -> 0 < d0 -> 0 < d1 -> (0 < m)%nat -> (i <= m)%nat ->
  exists pu pl,
    nth_error (plane_errors axes (mdiag (V3 d0 d1 d2)) "upper" l tr (2 * m + 1)) (i + m) = Some (Some pu) /\
    nth_error (plane_errors axes (mdiag (V3 d0 d1 d2)) "lower" l tr (2 * m + 1)) i = Some (Some pl) /\
    plane_dir tr pu = vneg (plane_dir tr pl).
Proof.
  intros axes d0 d1 d2 l tr m i O Z P Q M I.
  destruct (sheet_point axes d0 d1 d2 "upper" l tr (2 * m + 1) (i + m) O P Q) as (pu & E1 & D1); [lia|].
  destruct (sheet_point axes d0 d1 d2 "lower" l tr (2 * m + 1) i O P Q) as (pl & E2 & D2); [lia|].
  exists pu, pl. repeat split; auto. rewrite D1, D2, angle_half by auto.
  set (u := angle_at _ i). unfold half_width, in_plane. rewrite spread_half.
  destruct (side_up axes Z) as (_ & _ & _ & S2 & _). rewrite S2.
  set (h := atan _). replace (- side "upper" axes * h) with (- (side "upper" axes * h)) by ring.
  rewrite sin_neg, cos_neg, neg_cos, neg_sin. apply vec3_eq; vunf; ring.
Qed.

(** Number of points drawn. *)
Theorem C57_count : forall axes cov sheet l tr n, length (plane_errors axes cov sheet l tr n) = n.
Proof.
  intros. unfold plane_errors.
  destruct (String.eqb sheet "upper"), (String.eqb sheet "lower"), (Rlt_dec 0 (vz (r2 axes)));
    rewrite ?map_length; unfold ellipse; rewrite map_length; apply linspace_length.
Qed.

(** a plane dipping 45 degrees *)
Definition ax45 : mat3 := M3 (V3 0 1 0) (V3 (- / sqrt 2) 0 (/ sqrt 2)) (V3 (/ sqrt 2) 0 (/ sqrt 2)).
Lemma sqrt2_facts : 0 < / sqrt 2 /\ / sqrt 2 * / sqrt 2 = 1 / 2.
Proof.
  assert (0 < sqrt 2) by (apply sqrt_lt_R0; lra). assert (sqrt 2 * sqrt 2 = 2) by (apply sqrt_sqrt; lra).
  split; [now apply Rinv_0_lt_compat|].
  rewrite <- Rinv_mult. rewrite H0. field.
Qed.
Lemma ax45_ok : orthonormal ax45 /\ vz (r2 ax45) <> 0 /\ 0 < vz (r2 ax45).
Proof. pose proof sqrt2_facts. unfold orthonormal, ax45; munf. repeat split; nra. Qed.
Example C57_ex : exists p0 pu pl,
  nth_error (plane_errors ax45 (mdiag (V3 3 2 1)) "nominal" 1 true 100) 7 = Some (Some p0) /\
  nth_error (plane_errors ax45 (mdiag (V3 3 2 1)) "upper" 1 true 100) 7 = Some (Some pu) /\
  nth_error (plane_errors ax45 (mdiag (V3 3 2 1)) "lower" 1 true 100) 7 = Some (Some pl) /\ pu <> pl.
Proof.
  destruct ax45_ok as (O & Z & Z'). assert (I : (7 < 100)%nat) by lia.
  destruct (C57_sheets ax45 3 2 1 1 true 100 7 O Z ltac:(lra) ltac:(lra) I)
    as (p0 & pu & pl & A & B & C & _ & _ & _ & _ & F & G).
  exists p0, pu, pl. repeat split; auto. intros ->.
  rewrite F in G. assert (half_width 3 2 1 1 (angle_at 100 7) > 0); [|lra].
  unfold half_width. rewrite <- atan_0. apply atan_increasing.
  pose proof (spread_pos 3 2 (angle_at 100 7) ltac:(lra) ltac:(lra)). apply Rdiv_lt_0_compat; lra.
Qed.

(** * C54, C55 the two implementations of plane_errors *)
Lemma to_lonlat_cart : forall x y z, to_lonlat x y z = cart2sph (V3 x y z).
Proof. intros. reflexivity. Qed.
Lemma sdots_vm : forall e axes, sdots e axes = vm e axes.
Proof. intros. apply vec3_eq; munf; unfold sdots; munf; ring. Qed.

Definition known_sheet (s : string) : Prop := s = "upper"%string \/ s = "lower"%string \/ s = "nominal"%string.

Lemma iterative_value : forall axes d sheet l n, known_sheet sheet ->
  iterative_plane_errors axes (mdiag d) sheet l n =
  Ok (map (fun u => cart2sph (lay_plane true (vm (V3 (vx d * cos u) (vy d * sin u)
     ((if String.eqb sheet "upper" then 1 else if String.eqb sheet "lower" then -1 else 0) *
      (if Rlt_dec (vz (r2 axes)) 0 then 1 else -1) * (2 * vz d * 1))) axes))) (linspace2pi n)).
Proof.
  intros axes d sheet l n K. unfold iterative_plane_errors.
  destruct K as [-> | [-> | ->]]; cbn [rbind String.eqb Ascii.eqb Bool.eqb]; f_equal; apply map_ext; intros u; rewrite sdots_vm, to_lonlat_cart;
    unfold lay_plane; f_equal; destruct (Rlt_dec (vz (r2 axes)) 0); apply vec3_eq; munf; ring.
Qed.
Lemma plane_value : forall axes d sheet l tr n,
  plane_errors axes (mdiag d) sheet l tr n =
  map (fun u => cart2sph (lay_plane tr (vm (V3 (vx d * cos u) (vy d * sin u)
     (side sheet axes * (2 * vz d * l))) axes))) (linspace2pi n).
Proof.
  intros. unfold plane_errors, side, ellipse.
  destruct (String.eqb sheet "upper"), (String.eqb sheet "lower"), (Rlt_dec 0 (vz (r2 axes)));
    rewrite ?map_map; apply map_ext; intros; simpl; f_equal; f_equal; apply vec3_eq; munf; ring.
Qed.

(** At the default level and in the traditional layout they agree; the iterative
    version ignores the level it is given. *)
Theorem C54_agree : forall axes d sheet l n, vz (r2 axes) <> 0 -> known_sheet sheet ->
  iterative_plane_errors axes (mdiag d) sheet l n = Ok (plane_errors axes (mdiag d) sheet 1 true n).
Proof.
  intros axes d sheet l n Z K. rewrite iterative_value, plane_value by auto. f_equal. apply map_ext. intros u.
  do 3 f_equal. f_equal. unfold side.
  destruct (Rlt_dec 0 (vz (r2 axes))), (Rlt_dec (vz (r2 axes)) 0); try lra;
    destruct (String.eqb sheet "upper"), (String.eqb sheet "lower"); ring.
Qed.

(** They differ at every other level. *)
Theorem C54_level : forall axes d0 d1 d2 l tr n, orthonormal axes -> vz (r2 axes) <> 0 ->
  0 < d0 -> 0 < d1 -> d2 <> 0 -> (0 < n)%nat ->
  (plane_errors axes (mdiag (V3 d0 d1 d2)) "upper" l tr n =
   plane_errors axes (mdiag (V3 d0 d1 d2)) "upper" 1 tr n <-> l = 1).
Proof.
  intros axes d0 d1 d2 l tr n O Z P Q D N. split; [|intros ->; auto]. intros E.
  destruct (C57_sheets axes d0 d1 d2 l tr n 0 O Z P Q N) as (_ & pu & _ & _ & A & _ & _ & _ & _ & _ & B & _).
  destruct (C57_sheets axes d0 d1 d2 1 tr n 0 O Z P Q N) as (_ & pu' & _ & _ & A' & _ & _ & _ & _ & _ & B' & _).
  rewrite E, A' in A. injection A as <-. rewrite B in B'.
  assert (H : half_width d0 d1 d2 l (angle_at n 0) = half_width d0 d1 d2 1 (angle_at n 0)) by lra.
  unfold half_width in H. apply (f_equal tan) in H. rewrite !tan_atan in H.
  pose proof (spread_pos d0 d1 (angle_at n 0) P Q) as S.
  apply (f_equal (fun x => x * spread d0 d1 (angle_at n 0) / (2 * d2))) in H.
  replace (2 * d2 * l / spread d0 d1 (angle_at n 0) * spread d0 d1 (angle_at n 0) / (2 * d2)) with l in H by (field; lra).
  rewrite H. field. split; lra.
Qed.

(** A sheet with another name: one falls back to the nominal plane, the other fails. *)
Theorem C54_unknown_sheet : forall axes cov sheet l tr n, ~ known_sheet sheet ->
  plane_errors axes cov sheet l tr n = plane_errors axes cov "nominal" l tr n /\
  iterative_plane_errors axes cov sheet l n = Raise KeyError.
Proof.
  intros axes cov sheet l tr n K. unfold plane_errors, iterative_plane_errors.
  destruct (String.eqb_spec sheet "upper"); [exfalso; apply K; unfold known_sheet; auto|].
  destruct (String.eqb_spec sheet "lower"); [exfalso; apply K; unfold known_sheet; auto|].
  destruct (String.eqb_spec sheet "nominal"); [exfalso; apply K; unfold known_sheet; auto|].
  simpl. auto.
Qed.
Example C54_ex : iterative_plane_errors ax45 (mdiag (V3 3 2 1)) "lower" 5 100 =
  Ok (plane_errors ax45 (mdiag (V3 3 2 1)) "lower" 1 true 100).
Proof. apply C54_agree; [apply ax45_ok | unfold known_sheet; auto]. Qed.
Example C54_unknown_ex : ~ known_sheet "middle".
Proof. unfold known_sheet. intros [H|[H|H]]; discriminate. Qed.

(** Vertical plane: the sheets are swapped. *)
Theorem C55_swapped : forall axes d l n, vz (r2 axes) = 0 ->
  iterative_plane_errors axes (mdiag d) "upper" l n = Ok (plane_errors axes (mdiag d) "lower" 1 true n) /\
  iterative_plane_errors axes (mdiag d) "lower" l n = Ok (plane_errors axes (mdiag d) "upper" 1 true n) /\
  iterative_plane_errors axes (mdiag d) "nominal" l n = Ok (plane_errors axes (mdiag d) "nominal" 1 true n).
Proof.
  intros axes d l n Z. rewrite !iterative_value, !plane_value by (unfold known_sheet; auto).
  unfold side; simpl. destruct (Rlt_dec (vz (r2 axes)) 0), (Rlt_dec 0 (vz (r2 axes))); try lra.
  repeat split; f_equal; apply map_ext; intros; do 3 f_equal; f_equal; ring.
Qed.
Theorem C55_differ : forall axes d0 d1 d2 l n, orthonormal axes -> vz (r2 axes) = 0 ->
  0 < d0 -> 0 < d1 -> d2 <> 0 -> (0 < n)%nat ->
  iterative_plane_errors axes (mdiag (V3 d0 d1 d2)) "upper" l n <>
    Ok (plane_errors axes (mdiag (V3 d0 d1 d2)) "upper" 1 true n).
Proof.
  intros axes d0 d1 d2 l n O Z P Q D N E. destruct (C55_swapped axes (V3 d0 d1 d2) l n Z) as (A & _).
  rewrite A in E. injection E as E.
  destruct (sheet_point axes d0 d1 d2 "upper" 1 true n 0 O P Q N) as (pu & E1 & D1).
  destruct (sheet_point axes d0 d1 d2 "lower" 1 true n 0 O P Q N) as (pl & E2 & D2).
  rewrite E, E1 in E2. injection E2 as <-. rewrite D1 in D2.
  apply (f_equal (fun v => dot v (r2 axes))) in D2. rewrite !dot_add_l, !dot_scale_l in D2.
  destruct (in_plane_ok axes d0 d1 (angle_at n 0) O P Q) as [U DD].
  pose proof (orthonormal_unit2 _ O) as U3. unfold unit3, nrm2 in U3. rewrite DD, U3 in D2.
  unfold side in D2; simpl in D2. destruct (Rlt_dec 0 (vz (r2 axes))); [lra|].
  rewrite Rmult_1_l in D2. replace (-1 * half_width d0 d1 d2 1 (angle_at n 0)) with
    (- half_width d0 d1 d2 1 (angle_at n 0)) in D2 by ring. rewrite sin_neg in D2.
  assert (S0 : sin (half_width d0 d1 d2 1 (angle_at n 0)) = 0) by lra.
  pose proof (half_width_bound d0 d1 d2 1 (angle_at n 0)) as HB.
  pose proof (spread_pos d0 d1 (angle_at n 0) P Q) as S.
  assert (H0 : half_width d0 d1 d2 1 (angle_at n 0) = 0).
  { rewrite <- (asin_sin (half_width d0 d1 d2 1 (angle_at n 0))) by lra. rewrite S0. apply asin_0. }
  unfold half_width in H0. apply (f_equal tan) in H0. rewrite tan_atan, tan_0 in H0.
  apply Rmult_integral in H0. destruct H0 as [H0|H0]; [lra|].
  apply Rinv_neq_0_compat in H0; auto; lra.
Qed.
Definition axv : mat3 := M3 (V3 0 0 1) (V3 0 1 0) (V3 1 0 0).
Lemma axv_ok : orthonormal axv /\ vz (r2 axv) = 0.
Proof. unfold orthonormal, axv; munf. repeat split; lra. Qed.
Example C55_ex : iterative_plane_errors axv (mdiag (V3 3 2 1)) "upper" 1 100 <>
  Ok (plane_errors axv (mdiag (V3 3 2 1)) "upper" 1 true 100).
Proof. destruct axv_ok. apply C55_differ; auto; try lra; lia. Qed.

(** * C56 the two implementations of normal_errors *)
Theorem C56_agree : forall axes cov l tr n,
  normal_errors axes cov l tr n = iterative_normal_errors axes cov l tr n.
Proof.
  intros. unfold normal_errors, iterative_normal_errors, ellipse. rewrite !map_map.
  destruct (Rlt_dec (vz (r2 axes)) 0); f_equal; apply map_ext; intros u; rewrite sdots_vm;
    unfold lay_normal; destruct tr; rewrite to_lonlat_cart; f_equal; apply vec3_eq; munf; ring.
Qed.
Example C56_ex : length (fst (normal_errors (mneg ax45) (mdiag (V3 3 2 1)) 2 false 100)) = 100%nat.
Proof. unfold normal_errors, ellipse; cbn [fst]. now rewrite !map_length, linspace_length. Qed.

(** * C58 the error cone of the normal *)
(** axes as left behind by normal_errors: the third one points up *)
Definition turned (axes : mat3) : mat3 := if Rlt_dec (vz (r2 axes)) 0 then mneg axes else axes.
Lemma turned_ok : forall axes, orthonormal axes -> orthonormal (turned axes) /\ r2 (turned axes) = upward axes.
Proof.
  intros axes O. unfold turned, upward. destruct (Rlt_dec (vz (r2 axes)) 0); split; auto. now apply orthonormal_neg.
Qed.

Lemma normal_point : forall axes d0 d1 d2 l tr n i, orthonormal axes -> 0 < d0 -> 0 < d1 -> (i < n)%nat ->
  let u := angle_at n i in let h := half_width d0 d1 d2 1 u in
  let w := vadd (vscale (cos u) (r0 (turned axes))) (vscale (sin u) (r1 (turned axes))) in
  exists q, nth_error (fst (normal_errors axes (mdiag (V3 d0 d1 d2)) l tr n)) i = Some (Some q) /\
    normal_dir tr q = vsub (vscale (cos h) (upward axes)) (vscale (sin h) w) /\ unit3 w /\ dot w (upward axes) = 0.
Proof.
  intros axes d0 d1 d2 l tr n i O P Q I u h w. unfold normal_errors. fold (turned axes). cbn [fst].
  rewrite !nth_error_map, ellipse_nth by auto. fold u. simpl option_map.
  destruct (turned_ok axes O) as [O' U']. pose proof (spread_pos d0 d1 u P Q) as S.
  assert (W : unit3 w /\ dot w (upward axes) = 0).
  { rewrite <- U'. destruct O' as (A & B & C & D & E & F). pose proof (sincos1 u). unfold w. split.
    - apply unit_mix; auto.
    - rewrite dot_add_l, !dot_scale_l. repeat match goal with h : dot _ _ = _ |- _ => rewrite h end. ring. }
  destruct W as [W1 W2].
  assert (HH : h = atan (2 * d2 / spread d0 d1 u)) by (unfold h, half_width; now rewrite Rmult_1_r).
  destruct (cos_sin_atan (2 * d2) (spread d0 d1 u) S) as (X & Y & Z). rewrite <- HH in X, Y. set (k := sqrt _) in *.
  destruct (plot_normal tr k (vsub (vscale (cos h) (upward axes)) (vscale (sin h) w)) Z) as (q & E & N).
  { replace (vsub _ _) with (vadd (vscale (cos (- h)) (upward axes)) (vscale (sin (- h)) w)).
    - apply unit_mix; auto. + now apply upward_line. + now rewrite dot_comm.
    - rewrite cos_neg, sin_neg. apply vec3_eq; vunf; ring. }
  exists q. split; [|auto]. f_equal. rewrite <- E. f_equal. f_equal.
  transitivity (vsub (vscale (k * cos h) (upward axes)) (vscale (k * sin h) w)).
  2:{ apply vec3_eq; vunf; ring. }
  rewrite <- X, <- Y, <- U'. unfold w. fold (turned axes).
  replace (sqrt _) with (spread d0 d1 u).
  - apply vec3_eq; munf; ring.
  - unfold spread. f_equal. munf. ring.
Qed.

Theorem C58_dual : forall axes d0 d1 d2 l tr n i,
  orthonormal axes -> vz (r2 axes) <> 0 -> 0 < d0 -> 0 < d1 -> (i < n)%nat ->
  exists q pu, nth_error (fst (normal_errors axes (mdiag (V3 d0 d1 d2)) l tr n)) i = Some (Some q) /\
    nth_error (plane_errors axes (mdiag (V3 d0 d1 d2)) "upper" 1 tr n) i = Some (Some pu) /\
    unit3 (normal_dir tr q) /\ unit3 (plane_dir tr pu) /\
    acos (dot (normal_dir tr q) (upward axes)) = Rabs (asin (dot (plane_dir tr pu) (upward axes))) /\
    acos (dot (normal_dir tr q) (upward axes)) = Rabs (half_width d0 d1 d2 1 (angle_at n i)).
Proof.
  intros axes d0 d1 d2 l tr n i O Z P Q I.
  destruct (normal_point axes d0 d1 d2 l tr n i O P Q I) as (q & EQ & NQ & W1 & W2).
  destruct (C57_sheets axes d0 d1 d2 1 tr n i O Z P Q I) as (p0 & pu & pl & _ & EU & _ & _ & _ & _ & _ & AU & _).
  exists q, pu. set (h := half_width d0 d1 d2 1 (angle_at n i)) in *.
  assert (HB := half_width_bound d0 d1 d2 1 (angle_at n i)). fold h in HB.
  assert (AC : acos (dot (normal_dir tr q) (upward axes)) = Rabs h).
  { apply acos_unique.
    - split; [apply Rabs_pos|]. apply Rabs_le. pose proof PI_pos. lra.
    - rewrite NQ, dot_sub_l, !dot_scale_l, W2. destruct (upward_line axes O) as [U _].
      unfold unit3, nrm2 in U. rewrite U. unfold Rabs. destruct (Rcase_abs h); rewrite ?cos_neg; ring. }
  repeat split; auto.
  - rewrite NQ. replace (vsub _ _) with (vadd (vscale (cos (- h)) (upward axes)) (vscale (sin (- h))
      (vadd (vscale (cos (angle_at n i)) (r0 (turned axes))) (vscale (sin (angle_at n i)) (r1 (turned axes)))))).
    + apply unit_mix; auto. * now apply upward_line. * now rewrite dot_comm.
    + rewrite cos_neg, sin_neg. apply vec3_eq; vunf; ring.
  - clear. destruct pu as [lon lat]. pose proof (sph2cart_unit (lon, lat)) as U. unfold unit3 in *.
    rewrite <- U. unfold plane_dir, sph2cart. destruct tr; vunf; ring.
  - rewrite AC, AU. now rewrite Rabs_Ropp.
Qed.
Example C58_ex : exists q, nth_error (fst (normal_errors ax45 (mdiag (V3 3 2 1)) 1 true 100)) 0 = Some (Some q) /\
  acos (dot (normal_dir true q) (upward ax45)) = atan (2 / 3).
Proof.
  destruct ax45_ok as (O & Z & Z').
  destruct (C58_dual ax45 3 2 1 1 true 100 0 O Z ltac:(lra) ltac:(lra) ltac:(lia)) as (q & _ & A & _ & _ & _ & _ & B).
  exists q. split; auto. rewrite B. unfold half_width, angle_at, spread. simpl INR.
  replace (2 * PI * (0 / _)) with 0 by (unfold Rdiv; ring). rewrite cos_0, sin_0.
  replace (3 * 1 * (3 * 1) + 2 * 0 * (2 * 0)) with (3 * 3) by ring. rewrite sqrt_sq_pos by lra.
  replace (2 * 1 * 1 / 3) with (2 / 3) by field. rewrite Rabs_right; auto.
  apply Rle_ge, atan_nonneg. lra.
Qed.

(** * C59 levels *)
Theorem C59_level_ignored : forall axes cov l l' tr n,
  normal_errors axes cov l tr n = normal_errors axes cov l' tr n /\
  iterative_normal_errors axes cov l tr n = iterative_normal_errors axes cov l' tr n /\
  (forall sheet, iterative_plane_errors axes cov sheet l n = iterative_plane_errors axes cov sheet l' n).
Proof. intros. repeat split. Qed.

Theorem C59_monotone : forall axes d0 d1 d2 l l' tr n i,
  orthonormal axes -> vz (r2 axes) <> 0 -> 0 < d0 -> 0 < d1 -> 0 < d2 -> l < l' -> (i < n)%nat ->
  exists pu pl pu' pl',
    nth_error (plane_errors axes (mdiag (V3 d0 d1 d2)) "upper" l tr n) i = Some (Some pu) /\
    nth_error (plane_errors axes (mdiag (V3 d0 d1 d2)) "lower" l tr n) i = Some (Some pl) /\
    nth_error (plane_errors axes (mdiag (V3 d0 d1 d2)) "upper" l' tr n) i = Some (Some pu') /\
    nth_error (plane_errors axes (mdiag (V3 d0 d1 d2)) "lower" l' tr n) i = Some (Some pl') /\
    asin (dot (plane_dir tr pu') (upward axes)) < asin (dot (plane_dir tr pu) (upward axes)) /\
    asin (dot (plane_dir tr pl) (upward axes)) < asin (dot (plane_dir tr pl') (upward axes)).
Proof.
  intros axes d0 d1 d2 l l' tr n i O Z P Q D L I.
  destruct (C57_sheets axes d0 d1 d2 l tr n i O Z P Q I) as (_ & pu & pl & _ & A & B & _ & _ & _ & _ & E & F).
  destruct (C57_sheets axes d0 d1 d2 l' tr n i O Z P Q I) as (_ & pu' & pl' & _ & A' & B' & _ & _ & _ & _ & E' & F').
  exists pu, pl, pu', pl'. rewrite E, E', F, F'.
  assert (half_width d0 d1 d2 l (angle_at n i) < half_width d0 d1 d2 l' (angle_at n i)).
  { unfold half_width. apply atan_increasing. pose proof (spread_pos d0 d1 (angle_at n i) P Q).
    unfold Rdiv. apply Rmult_lt_compat_r; [now apply Rinv_0_lt_compat|]. nra. }
  repeat split; auto; lra.
Qed.
Example C59_ex : orthonormal ax45 /\ vz (r2 ax45) <> 0 /\ (1 < 2) /\ (3 < 100)%nat.
Proof. destruct ax45_ok as (A & B & _). repeat split; try apply A; auto; try lra; lia. Qed.

(** * C96 error_ellipse does not depend on what it is given *)
Lemma vsqrt_diag : forall d, 0 <= vx d -> 0 <= vy d -> 0 <= vz d ->
  vsqrt (r0 (mdiag d)) = Some (V3 (sqrt (vx d)) 0 0) /\
  vsqrt (r1 (mdiag d)) = Some (V3 0 (sqrt (vy d)) 0) /\
  vsqrt (r2 (mdiag d)) = Some (V3 0 0 (sqrt (vz d))).
Proof.
  intros d A B C. unfold vsqrt, fsqrt, obind; simpl.
  destruct (Rlt_dec (vx d) 0), (Rlt_dec (vy d) 0), (Rlt_dec (vz d) 0), (Rlt_dec 0 0); try lra.
  now rewrite sqrt_0.
Qed.
Theorem C96_constant_ellipse : forall n tr, (3 <= n)%nat -> exists p q,
  (forall axes d level, 0 < vx d -> 0 < vy d -> 0 <= vz d ->
     error_ellipse axes (mdiag d) level tr n = Ok [p; q; Some (if tr then atan2 1 1 else atan2 1 (-1), asin (1 / sqrt 3))]).
Proof.
  intros n tr N.
  set (c i := cos (angle_at n i)). set (s i := sin (angle_at n i)).
  exists (cart2sph (if tr then V3 (c 2%nat) (c 0%nat) (c 1%nat) else V3 (- c 1%nat) (c 0%nat) (c 2%nat))).
  exists (cart2sph (if tr then V3 (s 2%nat) (s 0%nat) (s 1%nat) else V3 (- s 1%nat) (s 0%nat) (s 2%nat))).
  intros axes d level P Q R. destruct (vsqrt_diag d) as (A & B & C); try lra.
  unfold error_ellipse. rewrite A, B, C. rewrite !nth_error_map, !ellipse_nth by lia. cbn [option_map].
  fold (c 0%nat) (c 1%nat) (c 2%nat) (s 0%nat) (s 1%nat) (s 2%nat).
  assert (PX := sqrt_lt_R0 _ P). assert (PY := sqrt_lt_R0 _ Q).
  assert (NN : forall a b e, a * a = 1 -> b * b = 1 -> e * e = 1 -> norm (V3 a b e) = sqrt 3).
  { intros a b e Ha Hb He. unfold norm. f_equal. vunf. lra. }
  assert (S3 : sqrt 3 <> 0) by (assert (0 < sqrt 3) by (apply sqrt_lt_R0; lra); lra).
  destruct tr; f_equal; (f_equal; [|f_equal; [|f_equal]]).
  - symmetry. rewrite <- (cart2sph_scale (sqrt (vx d))) by auto. f_equal. apply vec3_eq; vunf; ring.
  - symmetry. rewrite <- (cart2sph_scale (sqrt (vy d))) by auto. f_equal. apply vec3_eq; vunf; ring.
  - transitivity (cart2sph (V3 1 1 1)). { f_equal. apply vec3_eq; vunf; ring. }
    unfold cart2sph. rewrite NN by ring. destruct (Req_EM_T (sqrt 3) 0); [contradiction|]. reflexivity.
  - symmetry. rewrite <- (cart2sph_scale (sqrt (vx d))) by auto. f_equal. apply vec3_eq; vunf; ring.
  - symmetry. rewrite <- (cart2sph_scale (sqrt (vy d))) by auto. f_equal. apply vec3_eq; vunf; ring.
  - transitivity (cart2sph (V3 (-1) 1 1)). { f_equal. apply vec3_eq; vunf; ring. }
    unfold cart2sph. rewrite NN by ring. destruct (Req_EM_T (sqrt 3) 0); [contradiction|]. reflexivity.
Qed.
Theorem C96_too_few : forall n tr axes d level, (n < 3)%nat -> 0 <= vx d -> 0 <= vy d -> 0 <= vz d ->
  error_ellipse axes (mdiag d) level tr n = Raise IndexError.
Proof.
  intros n tr axes d level N P Q R. destruct (vsqrt_diag d) as (A & B & C); auto.
  unfold error_ellipse. rewrite A, B, C. rewrite (proj2 (nth_error_None _ 2)); auto.
  unfold ellipse. rewrite !map_length, linspace_length. lia.
Qed.
Example C96_ex : error_ellipse ax45 (mdiag (V3 3 2 1)) 1 true 1000 = error_ellipse axv (mdiag (V3 300 1 0)) 7 true 1000.
Proof.
  destruct (C96_constant_ellipse 1000 true ltac:(lia)) as (p & q & H). rewrite !H; simpl; auto; lra.
Qed.

(** * C97 width of the girdle of a reconstructed plane *)
Lemma tan_half_bounds : forall e, 0 < e < 180 ->
  radians e / 2 < atan (2 * tan (radians e / 2)) < radians e.
Proof.
  intros e He. assert (R : 0 < radians e < PI).
  { rewrite <- radians_0, <- radians_180. split; apply radians_lt; lra. }
  set (x := radians e / 2) in *. assert (X : 0 < x < PI / 2) by (unfold x; lra).
  assert (X2 : radians e = 2 * x) by (unfold x; lra).
  assert (T : 0 < tan x) by (apply tan_gt_0; lra). split.
  - rewrite <- (atan_tan x) at 1 by lra. apply atan_increasing. lra.
  - destruct (Rle_lt_dec (PI / 2) (radians e)).
    + pose proof (atan_bound (2 * tan x)). lra.
    + rewrite <- (atan_tan (radians e)) by lra. apply atan_increasing.
      rewrite X2 in *.
      assert (C : 0 < cos (2 * x)) by (apply cos_gt_0; lra).
      assert (Cx : 0 < cos x) by (apply cos_gt_0; lra). assert (Sx : 0 < sin x) by (apply sin_gt_0; lra).
      unfold tan. rewrite sin_2a. apply (Rmult_lt_reg_r (cos x * cos (2 * x))); [nra|].
      replace (2 * (sin x / cos x) * (cos x * cos (2 * x))) with (2 * sin x * cos (2 * x)) by (field; lra).
      replace (2 * sin x * cos x / cos (2 * x) * (cos x * cos (2 * x))) with (2 * sin x * (cos x * cos x)) by (field; lra).
      rewrite cos_2a. pose proof (Rmult_lt_0_compat _ _ (Rmult_lt_0_compat _ _ Sx Sx) Sx). lra.
Qed.

Lemma over_tan_value : forall ne e, 0 < e < PI / 2 -> over_tan ne e = Some (ne / tan e).
Proof.
  intros ne e E. pose proof (sin_gt_0 e) as S. pose proof (cos_gt_0 e) as C. pose proof PI_pos.
  unfold over_tan, fdiv. destruct (Req_EM_T (sin e) 0); [lra|]. f_equal. unfold tan. field. split; lra.
Qed.

Theorem C97_girdle_width : forall s d r a b ne, 0 <= d < 90 -> 0 < a < 180 -> 0 < b < 180 -> 0 < ne ->
  forall m, (0 < m)%nat -> exists p pts p0 pm,
  ReconstructedPlane s d r [a; b] ne = Some p /\ cartopy_girdle p "lower" (4 * m + 1) = Some pts /\
  nth_error pts 0 = Some (Some p0) /\ nth_error pts m = Some (Some pm) /\
  asin (dot (plane_dir false p0) (plane_normal s d)) = atan (2 * tan (radians b / 2)) /\
  asin (dot (plane_dir false pm) (plane_normal s d)) = atan (2 * tan (radians a / 2)) /\
  radians b / 2 < atan (2 * tan (radians b / 2)) < radians b /\
  radians a / 2 < atan (2 * tan (radians a / 2)) < radians a.
Proof.
  intros s d r a b ne Hd Ha Hb Hn m M.
  destruct (recon_value s d r [a; b] ne) as (p & E & _ & _ & _ & _ & _ & _ & H).
  destruct (C38_reconstructed_axes s d r [a; b] ne) as (p' & E' & _ & O & _ & _ & _ & PN).
  rewrite E in E'. injection E' as <-. destruct PN as [_ PN]; [lra|].
  assert (R : forall x, 0 < x < 180 -> 0 < radians x / 2 < PI / 2).
  { intros x Hx. assert (radians 0 < radians x < radians 180) by (split; apply radians_lt; lra).
    rewrite radians_0, radians_180 in H0. lra. }
  assert (Z : 0 < vz (r2 (rp_axes p))).
  { rewrite PN, plane_normal_components. simpl. apply cos_gt_0.
    - assert (radians 0 <= radians d) by (apply radians_le; lra). rewrite radians_0 in H0. pose proof PI_pos. lra.
    - rewrite <- radians_90. apply radians_lt. lra. }
  assert (UP : upward (rp_axes p) = plane_normal s d).
  { unfold upward. destruct (Rlt_dec (vz (r2 (rp_axes p))) 0); [lra|auto]. }
  assert (TA : 0 < tan (radians a / 2)) by (apply tan_gt_0; apply R; auto).
  assert (TB : 0 < tan (radians b / 2)) by (apply tan_gt_0; apply R; auto).
  set (h0 := ne / tan (radians b / 2)). set (h1 := ne / tan (radians a / 2)).
  assert (HY : rp_hyperbolic p = Some [h0; h1; ne]).
  { rewrite H. simpl. rewrite !over_tan_value by (apply R; auto). reflexivity. }
  assert (P0 : 0 < h0) by (unfold h0; now apply Rdiv_lt_0_compat).
  assert (P1 : 0 < h1) by (unfold h1; now apply Rdiv_lt_0_compat).
  assert (NZ : vz (r2 (rp_axes p)) <> 0) by lra.
  destruct (C57_sheets (rp_axes p) h0 h1 ne 1 false (4 * m + 1) 0 O NZ P0 P1 ltac:(lia))
    as (_ & _ & p0 & _ & _ & A0 & _ & _ & _ & _ & _ & B0).
  destruct (C57_sheets (rp_axes p) h0 h1 ne 1 false (4 * m + 1) m O NZ P0 P1 ltac:(lia))
    as (_ & _ & pm & _ & _ & A1 & _ & _ & _ & _ & _ & B1).
  exists p, (plane_errors (rp_axes p) (mdiag (V3 h0 h1 ne)) "lower" 1 false (4 * m + 1)), p0, pm.
  rewrite UP in B0, B1. rewrite B0, B1.
  assert (U0 : angle_at (4 * m + 1) 0 = 0) by (unfold angle_at; simpl INR; unfold Rdiv; ring).
  assert (U1 : angle_at (4 * m + 1) m = PI / 2).
  { unfold angle_at. replace (4 * m + 1 - 1)%nat with (4 * m)%nat by lia. rewrite mult_INR. simpl INR.
    assert (0 < INR m) by (apply lt_0_INR; lia). field. lra. }
  rewrite U0, U1. unfold half_width, spread. rewrite cos_0, sin_0, cos_PI2, sin_PI2.
  replace (h0 * 1 * (h0 * 1) + h1 * 0 * (h1 * 0)) with (h0 * h0) by ring.
  replace (h0 * 0 * (h0 * 0) + h1 * 1 * (h1 * 1)) with (h1 * h1) by ring.
  rewrite !sqrt_sq_pos by lra.
  repeat split; auto; try (apply tan_half_bounds; auto).
  - unfold cartopy_girdle, recon_covariance. rewrite HY. reflexivity.
  - f_equal. unfold h0. field. split; lra.
  - f_equal. unfold h1. field. split; lra.
Qed.
Example C97_ex : exists p pts p0, ReconstructedPlane 30 40 20 [5; 10] 1 = Some p /\
  cartopy_girdle p "lower" 401 = Some pts /\ nth_error pts 0 = Some (Some p0) /\
  asin (dot (plane_dir false p0) (plane_normal 30 40)) = atan (2 * tan (radians 10 / 2)).
Proof.
  destruct (C97_girdle_width 30 40 20 5 10 1) with (m := 100%nat) as (p & pts & p0 & pm & A & B & C & _ & D & _); try lra; try lia.
  exists p, pts, p0. auto.
Qed.

(** * C98 what mplstereonet shows *)
(** The upward direction mplstereonet's convention gives to a plotted point. *)
Definition shown (p : R * R) : vec3 :=
  let '(lon, lat) := p in V3 (- (cos lat * sin lon)) (- sin lat) (cos lat * cos lon).

Lemma shown_vec : forall p, vec_of p = shown p.
Proof. intros [lon lat]. apply vec3_eq; unfold vec_of, shown; simpl; ring. Qed.

Lemma nth_error_rev_lt : forall A (l : list A) i, (i < length l)%nat ->
  nth_error (rev l) i = nth_error l (length l - 1 - i).
Proof.
  intros A l i H. destruct l as [|a l0] eqn:L; [simpl in H; lia|]. rewrite <- L in *.
  rewrite (nth_error_nth' (rev l) a) by (rewrite rev_length; auto).
  rewrite rev_nth by auto. rewrite (nth_error_nth' l a) by lia. f_equal. f_equal. lia.
Qed.

(** Every vertex of the girdle and pole patches stands for the direction it was
    computed from, so the pole is perpendicular to the nominal girdle. *)
Theorem C98_girdle : forall axes d0 d1 d2 i, orthonormal axes -> 0 < d0 -> 0 < d1 -> (i < 1000)%nat ->
  exists g g' pu pl,
    nth_error (girdle_error axes (mdiag (V3 d0 d1 d2))) i = Some (Some g) /\
    nth_error (girdle_error axes (mdiag (V3 d0 d1 d2))) (1999 - i) = Some (Some g') /\
    nth_error (plane_errors axes (mdiag (V3 d0 d1 d2)) "upper" 1 true 1000) i = Some (Some pu) /\
    nth_error (plane_errors axes (mdiag (V3 d0 d1 d2)) "lower" 1 true 1000) i = Some (Some pl) /\
    shown g = plane_dir true pu /\ shown g' = plane_dir true pl.
Proof.
  intros axes d0 d1 d2 i O P Q I.
  destruct (sheet_point axes d0 d1 d2 "upper" 1 true 1000 i O P Q I) as (pu & EU & _).
  destruct (sheet_point axes d0 d1 d2 "lower" 1 true 1000 i O P Q I) as (pl & EL & _).
  assert (LU := C57_count axes (mdiag (V3 d0 d1 d2)) "upper" 1 true 1000).
  assert (LL := C57_count axes (mdiag (V3 d0 d1 d2)) "lower" 1 true 1000).
  exists (negate_both pu), (negate_both pl), pu, pl.
  assert (SH : forall p, shown (negate_both p) = plane_dir true p).
  { intros [lon lat]. unfold shown, negate_both, plane_dir; cbn [fst snd].
    rewrite !cos_neg, !sin_neg. apply vec3_eq; cbn [vx vy vz]; ring. }
  unfold girdle_error. repeat split; auto.
  - rewrite nth_error_app1 by (rewrite map_length; lia). now rewrite nth_error_map, EU.
  - rewrite nth_error_app2 by (rewrite map_length; lia). rewrite map_length, LU.
    rewrite nth_error_rev_lt by (rewrite map_length, LL; lia). rewrite map_length, LL.
    replace (1000 - 1 - (1999 - i - 1000))%nat with i by lia. now rewrite nth_error_map, EL.
Qed.
Theorem C98_pole : forall axes d0 d1 d2 i, orthonormal axes -> 0 < d0 -> 0 < d1 -> (i < 1000)%nat ->
  exists g q,
    nth_error (pole_error axes (mdiag (V3 d0 d1 d2))) i = Some (Some g) /\
    nth_error (fst (normal_errors axes (mdiag (V3 d0 d1 d2)) 1 true 1000)) i = Some (Some q) /\
    shown g = normal_dir true q.
Proof.
  intros axes d0 d1 d2 i O P Q I.
  destruct (normal_point axes d0 d1 d2 1 true 1000 i O P Q I) as (q & E & _).
  exists (- fst q, snd q), q. unfold pole_error. repeat split; auto.
  - now rewrite nth_error_map, E.
  - destruct q as [lon lat]. unfold shown, normal_dir; cbn [fst snd].
    rewrite !cos_neg, !sin_neg. apply vec3_eq; cbn [vx vy vz]; ring.
Qed.
(** Without those sign changes the two sets of points are drawn inconsistently:
    read with one convention, the exact pole ([d2 = 0]) is perpendicular to the
    girdle point only if one of them has no northward component. *)
Theorem C98_raw_inconsistent : forall axes d0 d1 tr n i,
  orthonormal axes -> 0 < d0 -> 0 < d1 -> (i < n)%nat ->
  exists q p, nth_error (fst (normal_errors axes (mdiag (V3 d0 d1 0)) 1 tr n)) i = Some (Some q) /\
    nth_error (plane_errors axes (mdiag (V3 d0 d1 0)) "nominal" 1 tr n) i = Some (Some p) /\
    normal_dir tr q = upward axes /\ dot (normal_dir tr q) (plane_dir tr p) = 0 /\
    dot (shown q) (shown p) = (if tr then -2 * vy (upward axes) * vy (plane_dir true p) else 0).
Proof.
  intros axes d0 d1 tr n i O P Q I.
  destruct (normal_point axes d0 d1 0 1 tr n i O P Q I) as (q & E & N & _).
  destruct (sheet_point axes d0 d1 0 "nominal" 1 tr n i O P Q I) as (p & E' & N').
  assert (H0 : forall u l, half_width d0 d1 0 l u = 0).
  { intros. unfold half_width. replace (2 * 0 * l) with 0 by ring. unfold Rdiv. rewrite Rmult_0_l. apply atan_0. }
  rewrite H0, sin_0, cos_0 in N. rewrite H0, Rmult_0_r, sin_0, cos_0 in N'.
  assert (NQ : normal_dir tr q = upward axes) by (rewrite N; apply vec3_eq; vunf; ring).
  assert (D : dot (normal_dir tr q) (plane_dir tr p) = 0).
  { rewrite NQ, N', dot_comm, dot_add_l, !dot_scale_l.
    destruct (in_plane_ok axes d0 d1 (angle_at n i) O P Q) as [_ D].
    destruct (upward_line axes O) as [_ UD]. rewrite UD by auto. ring. }
  exists q, p. repeat split; auto. rewrite <- NQ. revert D.
  destruct q as [lon lat], p as [lon' lat'], tr; unfold normal_dir, plane_dir, shown; vunf; intros; lra.
Qed.
Example C98_ex : exists q p, dot (shown q) (shown p) <> 0 /\
  nth_error (fst (normal_errors (M3 (V3 (-1/3) (-2/3) (-2/3)) (V3 (2/3) (1/3) (-2/3)) (V3 (2/3) (-2/3) (1/3)))
    (mdiag (V3 3 2 0)) 1 true 5)) 0 = Some (Some q) /\
  nth_error (plane_errors (M3 (V3 (-1/3) (-2/3) (-2/3)) (V3 (2/3) (1/3) (-2/3)) (V3 (2/3) (-2/3) (1/3)))
    (mdiag (V3 3 2 0)) "nominal" 1 true 5) 0 = Some (Some p).
Proof.
  pose proof obl_orthonormal as O. fold obl_axes.
  destruct (C98_raw_inconsistent obl_axes 3 2 true 5 0 O ltac:(lra) ltac:(lra) ltac:(lia)) as (q & p & A & B & C & _ & E).
  exists q, p. repeat split; auto. rewrite E.
  destruct (sheet_point obl_axes 3 2 0 "nominal" 1 true 5 0 O ltac:(lra) ltac:(lra) ltac:(lia)) as (p' & B' & D).
  rewrite B in B'. injection B' as <-. rewrite D.
  assert (H0 : forall u l, half_width 3 2 0 l u = 0).
  { intros. unfold half_width. replace (2 * 0 * l) with 0 by ring. unfold Rdiv. rewrite Rmult_0_l. apply atan_0. }
  rewrite H0, Rmult_0_r, sin_0, cos_0. unfold in_plane, spread, angle_at. simpl INR.
  replace (2 * PI * (0 / _)) with 0 by (unfold Rdiv; ring). rewrite cos_0, sin_0.
  replace (3 * 1 * (3 * 1) + 2 * 0 * (2 * 0)) with (3 * 3) by ring. rewrite sqrt_sq_pos by lra.
  unfold upward, obl_axes; simpl. destruct (Rlt_dec (1 / 3) 0); [lra|]. simpl. lra.
Qed.

(** * C99 normal_errors turns the caller's axes *)
Theorem C99_turns_axes : forall axes cov l tr n,
  let axes' := snd (normal_errors axes cov l tr n) in
  0 <= vz (r2 axes') /\ same_line (r0 axes') (r0 axes) /\ same_line (r1 axes') (r1 axes) /\ same_line (r2 axes') (r2 axes) /\
  (0 <= vz (r2 axes) -> axes' = axes) /\
  normal_errors axes' cov l tr n = (fst (normal_errors axes cov l tr n), axes').
Proof.
  intros axes cov l tr n. unfold normal_errors, same_line. cbn [fst snd].
  destruct (Rlt_dec (vz (r2 axes)) 0).
  - destruct (Rlt_dec (vz (r2 (mneg axes))) 0); munf; [lra|]. repeat split; auto; lra.
  - destruct (Rlt_dec (vz (r2 axes)) 0); [lra|]. repeat split; auto; lra.
Qed.
(** A girdle drawn afterwards consists of the same points, half a turn along. *)
Theorem C99_girdle_shifted : forall axes cov l tr d sheet l' tr' m, vz (r2 axes) < 0 -> (0 < m)%nat ->
  let axes' := snd (normal_errors axes cov l tr (2 * m + 1)) in
  forall i, (i <= m)%nat ->
  nth_error (plane_errors axes' (mdiag d) sheet l' tr' (2 * m + 1)) i =
    nth_error (plane_errors axes (mdiag d) sheet l' tr' (2 * m + 1)) (i + m) /\
  nth_error (plane_errors axes' (mdiag d) sheet l' tr' (2 * m + 1)) (i + m) =
    nth_error (plane_errors axes (mdiag d) sheet l' tr' (2 * m + 1)) i.
Proof.
  intros axes cov l tr d sheet l' tr' m Z M axes' i I. subst axes'. unfold normal_errors. cbn [snd].
  destruct (Rlt_dec (vz (r2 axes)) 0); [|lra]. rewrite !plane_point by lia. rewrite !angle_half by auto.
  rewrite neg_cos, neg_sin.
  assert (S : side sheet (mneg axes) = - side sheet axes).
  { unfold side. destruct (Rlt_dec 0 (vz (r2 axes))); [lra|].
    destruct (Rlt_dec 0 (vz (r2 (mneg axes)))) as [h|h]; auto. exfalso. apply h. munf. lra. }
  rewrite S. split; f_equal; f_equal; f_equal; apply vec3_eq; munf; ring.
Qed.
Example C99_ex : vz (r2 (mneg ax45)) < 0.
Proof. destruct ax45_ok as (_ & _ & H). munf. lra. Qed.

(** * C100 the error cone is the polar of the girdle only on the principal axes *)
Theorem C100_polar_iff : forall axes d0 d1 d2 tr n i,
  orthonormal axes -> 0 < vz (r2 axes) -> 0 < d0 -> 0 < d1 -> 0 < d2 -> (i < n)%nat ->
  exists q pl, nth_error (fst (normal_errors axes (mdiag (V3 d0 d1 d2)) 1 tr n)) i = Some (Some q) /\
    nth_error (plane_errors axes (mdiag (V3 d0 d1 d2)) "lower" 1 tr n) i = Some (Some pl) /\
    (dot (normal_dir tr q) (plane_dir tr pl) = 0 <->
     d0 = d1 \/ sin (angle_at n i) = 0 \/ cos (angle_at n i) = 0).
Proof.
  intros axes d0 d1 d2 tr n i O Z P Q D I. set (u := angle_at n i).
  destruct (normal_point axes d0 d1 d2 1 tr n i O P Q I) as (q & EQ & NQ & W1 & W2). fold u in NQ, W1, W2.
  destruct (sheet_point axes d0 d1 d2 "lower" 1 tr n i O P Q I) as (pl & EL & NL). fold u in NL.
  exists q, pl. split; [auto|]. split; [auto|].
  assert (TU : turned axes = axes) by (unfold turned; destruct (Rlt_dec (vz (r2 axes)) 0); [lra|auto]).
  assert (UP : upward axes = r2 axes) by (unfold upward; destruct (Rlt_dec (vz (r2 axes)) 0); [lra|auto]).
  assert (SD : side "lower" axes = 1).
  { unfold side; simpl. destruct (Rlt_dec 0 (vz (r2 axes))); lra. }
  rewrite SD, Rmult_1_l in NL. rewrite TU in *. rewrite UP in *.
  set (h := half_width d0 d1 d2 1 u) in *. set (w := vadd _ _) in NQ, W1, W2.
  pose proof (spread_pos d0 d1 u P Q) as S. destruct (in_plane_ok axes d0 d1 u O P Q) as [U DP].
  assert (HH : 0 < h < PI / 2).
  { split; [|apply half_width_bound]. unfold h, half_width. rewrite <- atan_0. apply atan_increasing.
    apply Rdiv_lt_0_compat; lra. }
  assert (SH : 0 < sin h) by (apply sin_gt_0; lra). assert (CH : 0 < cos h) by (apply cos_gt_0; lra).
  assert (IW : dot w (in_plane axes d0 d1 u) = (d0 * (cos u * cos u) + d1 * (sin u * sin u)) / spread d0 d1 u).
  { unfold w, in_plane. rewrite dot_scale_r, dot_add_l, !dot_add_r, !dot_scale_l, !dot_scale_r.
    destruct O as (A & B & C & E & F & G). rewrite (dot_comm (r1 axes) (r0 axes)).
    repeat match goal with h : dot _ _ = _ |- _ => rewrite h end. field. lra. }
  assert (V : dot (normal_dir tr q) (plane_dir tr pl) =
    sin h * cos h / spread d0 d1 u * (spread d0 d1 u - (d0 * (cos u * cos u) + d1 * (sin u * sin u)))).
  { rewrite NQ, NL, dot_sub_l, !dot_add_r, !dot_scale_l, !dot_scale_r, IW, W2, (dot_comm (r2 axes)), DP.
    pose proof (orthonormal_unit2 _ O) as U3. unfold unit3, nrm2 in U3. rewrite U3. field. lra. }
  assert (K : 0 < sin h * cos h / spread d0 d1 u) by (apply Rdiv_lt_0_compat; nra).
  assert (SS : spread d0 d1 u * spread d0 d1 u = d0 * cos u * (d0 * cos u) + d1 * sin u * (d1 * sin u)).
  { unfold spread. apply sqrt_sqrt. nra. }
  set (t := d0 * (cos u * cos u) + d1 * (sin u * sin u)) in *.
  assert (T0 : 0 <= t) by (unfold t; nra).
  assert (DIF : spread d0 d1 u * spread d0 d1 u - t * t = (cos u * sin u * (d0 - d1)) * (cos u * sin u * (d0 - d1))).
  { rewrite SS. unfold t. pose proof (sincos1 u) as SC.
    replace (d1 * sin u * (d1 * sin u)) with (d1 * d1 * (sin u * sin u)) by ring.
    replace (cos u * sin u * (d0 - d1) * (cos u * sin u * (d0 - d1))) with
      (cos u * cos u * (sin u * sin u) * ((d0 - d1) * (d0 - d1))) by ring.
    replace (sin u * sin u) with (1 - cos u * cos u) by lra. ring. }
  rewrite V. split; intros H.
  - apply Rmult_integral in H. destruct H as [H|H]; [lra|].
    assert (X : spread d0 d1 u = t) by lra. rewrite X in DIF.
    assert (Y : cos u * sin u * (d0 - d1) = 0) by nra.
    apply Rmult_integral in Y. destruct Y as [Y|Y]; [|left; lra].
    apply Rmult_integral in Y. tauto.
  - assert (Y : cos u * sin u * (d0 - d1) = 0) by (destruct H as [-> | [H|H]]; rewrite ?H; ring).
    rewrite Y in DIF. assert (spread d0 d1 u = t) by nra. rewrite H0. ring.
Qed.
Example C100_ex : exists q pl,
  nth_error (fst (normal_errors ax45 (mdiag (V3 3 2 1)) 1 true 9)) 1 = Some (Some q) /\
  nth_error (plane_errors ax45 (mdiag (V3 3 2 1)) "lower" 1 true 9) 1 = Some (Some pl) /\
  dot (normal_dir true q) (plane_dir true pl) <> 0.
Proof.
  destruct ax45_ok as (O & _ & Z).
  destruct (C100_polar_iff ax45 3 2 1 true 9 1 O Z ltac:(lra) ltac:(lra) ltac:(lra) ltac:(lia)) as (q & pl & A & B & C).
  exists q, pl. repeat split; auto. intros H. apply C in H.
  assert (E : angle_at 9 1 = PI / 4) by (unfold angle_at; simpl INR; field).
  rewrite E, sin_PI4, cos_PI4 in H. pose proof sqrt2_facts. destruct H as [H|[H|H]]; lra.
Qed.

(** * C101 error_coords *)
(** One entry per requested level in order; each entry holds that level's sheets
    and the same three-point ellipse; fewer than three points raise IndexError. *)
Theorem C101_coords : forall axes d levels tr n,
  (3 <= n)%nat -> 0 < vx d -> 0 < vy d -> 0 <= vz d -> exists c ell,
  error_coords axes (mdiag d) (Some levels) true tr n = Ok c /\
  co_nominal c = plane_errors axes (mdiag d) "nominal" 1 tr n /\ length ell = 3%nat /\
  co_single c = None /\ map fst (co_levels c) = levels /\
  Forall (fun '(l, s) => sh_upper s = plane_errors axes (mdiag d) "upper" l tr n /\
     sh_lower s = plane_errors axes (mdiag d) "lower" l tr n /\ sh_ellipse s = Some ell) (co_levels c).
Proof.
  intros axes d levels tr n N P Q R. destruct (C96_constant_ellipse n tr N) as (p & q & H).
  set (ell := [p; q; _]) in H.
  assert (E : exists r, error_shells (error_shell axes (mdiag d) true tr n) levels = Ok r /\ map fst r = levels /\
    Forall (fun '(l, s) => sh_upper s = plane_errors axes (mdiag d) "upper" l tr n /\
     sh_lower s = plane_errors axes (mdiag d) "lower" l tr n /\ sh_ellipse s = Some ell) r).
  { induction levels as [|l t IH]; [exists []; repeat split; constructor|].
    destruct IH as (r & E1 & E2 & E3). cbn [error_shells]. unfold error_shell at 1. rewrite H by auto. cbn [rbind].
    rewrite E1. cbn [rbind]. eexists; split; [reflexivity|]. cbn [map fst]. rewrite E2. split; auto. }
  destruct E as (r & E1 & E2 & E3). unfold error_coords. rewrite E1. cbn [rbind].
  eexists; exists ell. split; [reflexivity|]. cbn. repeat split; auto.
Qed.
Theorem C101_default : forall axes d tr n,
  (3 <= n)%nat -> 0 < vx d -> 0 < vy d -> 0 <= vz d -> exists c s,
  error_coords axes (mdiag d) None true tr n = Ok c /\ co_single c = Some s /\ co_levels c = [] /\
  sh_upper s = plane_errors axes (mdiag d) "upper" 1 tr n /\ sh_lower s = plane_errors axes (mdiag d) "lower" 1 tr n.
Proof.
  intros axes d tr n N P Q R. destruct (C96_constant_ellipse n tr N) as (p & q & H).
  unfold error_coords, error_shell. rewrite H by auto. cbn [rbind].
  do 2 eexists. repeat split.
Qed.
Theorem C101_too_few : forall axes d levels tr n,
  (n < 3)%nat -> 0 <= vx d -> 0 <= vy d -> 0 <= vz d ->
  (error_coords axes (mdiag d) levels true tr n = Raise IndexError <-> levels <> Some []) /\
  exists c, error_coords axes (mdiag d) levels false tr n = Ok c.
Proof.
  intros axes d levels tr n N P Q R. split.
  - unfold error_coords, error_shell. destruct levels as [[|l t]|]; cbn [error_shells]; rewrite ?C96_too_few by auto; cbn [rbind].
    + split; [discriminate|]. intros H. now destruct H.
    + split; auto. intros _. discriminate.
    + split; auto. intros _. discriminate.
  - assert (E : forall ls, exists r, error_shells (error_shell axes (mdiag d) false tr n) ls = Ok r).
    { induction ls as [|l t [r IH]]; [eexists; reflexivity|]. cbn [error_shells]. rewrite IH. eexists; reflexivity. }
    unfold error_coords. destruct levels as [ls|]; [destruct (E ls) as [r ->]|]; eexists; reflexivity.
Qed.
Example C101_ex : exists c, error_coords ax45 (mdiag (V3 3 2 1)) (Some [1; 2; 3]) true true 1000 = Ok c /\
  map fst (co_levels c) = [1; 2; 3].
Proof.
  destruct (C101_coords ax45 (V3 3 2 1) [1; 2; 3] true 1000) as (c & ell & A & _ & _ & _ & B & _); simpl; try lra; try lia.
  exists c. auto.
Qed.

Print Assumptions C57_sheets.
Print Assumptions C57_antipodal.
Print Assumptions C57_count.
Print Assumptions C54_agree.
Print Assumptions C54_level.
Print Assumptions C54_unknown_sheet.
Print Assumptions C55_swapped.
Print Assumptions C55_differ.
Print Assumptions C56_agree.
Print Assumptions C58_dual.
Print Assumptions C59_level_ignored.
Print Assumptions C59_monotone.
Print Assumptions C96_constant_ellipse.
Print Assumptions C96_too_few.
Print Assumptions C97_girdle_width.
Print Assumptions C98_girdle.
Print Assumptions C98_pole.
Print Assumptions C98_raw_inconsistent.
Print Assumptions C99_turns_axes.
Print Assumptions C99_girdle_shifted.
Print Assumptions C100_polar_iff.
Print Assumptions C101_coords.
Print Assumptions C101_default.
Print Assumptions C101_too_few.
