(** Poles, principal axes and error angles passed from Python to the browser (C178-C180). *)
From Coq Require Import Reals Lra Lia List Arith String Psatz.
From Verif Require Import RVec Trig SpecPlane MPca LSvd LPca LFit LAngles LFit2 LExamples MAxes LAxes PAxes MSphere MRecon LRecon PRecon
  MGroup MMapping PMapping MStereo SpecStereo PStereo MFront SpecFront PFront PFront2 MAgree PAgree.
Import ListNotations.
Open Scope R_scope.
Notation length := List.length.

(** * C178: error ellipses of poles *)
(** The polar cone of [on_cone axes h] *)
Definition on_polar (axes : mat3) (h u : vec3) : Prop :=
  vx h * (c0 axes u * c0 axes u) + vy h * (c1 axes u * c1 axes u) = vz h * (c2 axes u * c2 axes u).
Lemma half_width_sq : forall d0 d1 d2 u, 0 < d0 -> 0 < d1 -> 0 < d2 ->
  let h := half_width d0 d1 d2 1 u in
  sin h * sin h * (d0 * d0 * (cos u * cos u) + d1 * d1 * (sin u * sin u)) = 2 * d2 * (2 * d2) * (cos h * cos h) /\ 0 < cos h.
Proof.
  intros d0 d1 d2 u P0 P1 P2 h. pose proof (spread_pos d0 d1 u P0 P1) as S.
  destruct (cos_sin_atan (2 * d2) (spread d0 d1 u) S) as (X & Y & K).
  assert (HH : h = atan (2 * d2 / spread d0 d1 u)) by (unfold h, half_width; now rewrite Rmult_1_r).
  rewrite <- HH in X, Y. set (k := sqrt _) in *. clearbody k.
  assert (SS : spread d0 d1 u * spread d0 d1 u = d0 * d0 * (cos u * cos u) + d1 * d1 * (sin u * sin u)).
  { unfold spread. rewrite sqrt_sqrt; [ring|].
    pose proof (Rle_0_sqr (d0 * cos u)). pose proof (Rle_0_sqr (d1 * sin u)). unfold Rsqr in *. lra. }
  rewrite <- SS. split.
  - rewrite X, Y. ring.
  - destruct (Rle_lt_dec (cos h) 0); [|auto]. exfalso. nra.
Qed.
(** Python's pole ellipse and the browser's one, given the squares of the same lengths, are
    on the same cone around the plane's normal: Python on its upward end, whatever way the
    third axis points, the browser on the end of the third axis. *)
Theorem C178_same_cone : forall axes d0 d1 d2 l tr n degrees up m,
  orthonormal axes -> 0 < d0 -> 0 < d1 -> 0 < d2 ->
  let h := squared d0 d1 d2 1 in
  (forall q, In q (fst (py_normal axes (mdiag (V3 d0 d1 d2)) l tr n)) -> exists p, q = Some p /\
     unit3 (normal_dir tr p) /\ on_polar axes h (normal_dir tr p) /\ 0 < dot (normal_dir tr p) (upward axes)) /\
  (exists qs, js_normal h axes "upper" (Some 1) (mkOpts m degrees tr up) = Ok qs /\
   forall q, In q qs -> exists lon lat, q = (lon, Some lat) /\
     let u := drawn degrees tr up (lon, lat) in unit3 u /\ on_polar axes h u /\ 0 < dot u (r2 axes)).
Proof.
  intros axes d0 d1 d2 l tr n degrees up m O P0 P1 P2 h.
  assert (Q0 : 0 < d0 * d0) by nra. assert (Q1 : 0 < d1 * d1) by nra.
  assert (Q2 : 0 < 2 * d2 * 1 * (2 * d2 * 1)) by nra.
  split.
  - intros q H. apply In_nth_error in H. destruct H as (i & H).
    assert (L : length (fst (py_normal axes (mdiag (V3 d0 d1 d2)) l tr n)) = n).
    { unfold MStereo.normal_errors, ellipse. cbn [fst]. now rewrite !map_length, linspace_length. }
    assert (I : (i < n)%nat) by (rewrite <- L; apply nth_error_Some; congruence).
    destruct (normal_point axes d0 d1 d2 l tr n i O P0 P1 I) as (p & E & D & W1 & W2).
    rewrite H in E. injection E as ->. exists p. split; auto.
    destruct (half_width_sq d0 d1 d2 (angle_at n i) P0 P1 P2) as [HS HC]. cbv zeta in HS, HC.
    set (u := angle_at n i) in *. set (a := half_width d0 d1 d2 1 u) in *.
    set (w := vadd _ _) in *. destruct (turned_ok axes O) as [O' U'].
    destruct (upward_line axes O) as [UU _].
    assert (U1 : unit3 (normal_dir tr p)).
    { rewrite D. replace (vsub _ _) with (vadd (vscale (cos (- a)) (upward axes)) (vscale (sin (- a)) w)).
      - apply unit_mix; auto. now rewrite dot_comm.
      - rewrite cos_neg, sin_neg. apply vec3_eq; vunf; ring. }
    split; auto. split.
    + assert (C : c0 (turned axes) (normal_dir tr p) = - (sin a * cos u) /\ c1 (turned axes) (normal_dir tr p) = - (sin a * sin u) /\
                  c2 (turned axes) (normal_dir tr p) = cos a).
      { rewrite D, <- U'. unfold w, c0, c1, c2. destruct O' as (A & B & C & X & Y & Z).
        rewrite !dot_sub_l, !dot_scale_l, !dot_add_l, !dot_scale_l.
        rewrite (dot_comm (r1 (turned axes)) (r0 (turned axes))), (dot_comm (r2 (turned axes)) (r0 (turned axes))),
          (dot_comm (r2 (turned axes)) (r1 (turned axes))).
        unfold unit3, nrm2 in *. rewrite A, B, C, X, Y, Z. repeat split; ring. }
      destruct C as (C0 & C1 & C2).
      assert (SQ : c0 axes (normal_dir tr p) * c0 axes (normal_dir tr p) = sin a * cos u * (sin a * cos u) /\
                   c1 axes (normal_dir tr p) * c1 axes (normal_dir tr p) = sin a * sin u * (sin a * sin u) /\
                   c2 axes (normal_dir tr p) * c2 axes (normal_dir tr p) = cos a * cos a).
      { unfold turned in C0, C1, C2. destruct (Rlt_dec (vz (r2 axes)) 0).
        - unfold c0, c1, c2 in *. unfold mneg in C0, C1, C2. cbn [r0 r1 r2] in C0, C1, C2. rewrite dot_neg_r in C0, C1, C2.
          repeat split; [replace (dot _ (r0 axes)) with (sin a * cos u) by lra | replace (dot _ (r1 axes)) with (sin a * sin u) by lra
                        | replace (dot _ (r2 axes)) with (- cos a) by lra]; ring.
        - rewrite C0, C1, C2. repeat split; ring. }
      destruct SQ as (S0 & S1 & S2). unfold on_polar, h, squared. cbn [vx vy vz]. rewrite S0, S1, S2.
      transitivity (sin a * sin a * (d0 * d0 * (cos u * cos u) + d1 * d1 * (sin u * sin u))); [ring|]. rewrite HS. ring.
    + rewrite D, dot_sub_l, !dot_scale_l, W2. unfold unit3, nrm2 in UU. rewrite UU. lra.
  - assert (F : exists qs, js_normal h axes "upper" (Some 1) (mkOpts m degrees tr up) = Ok qs).
    { unfold MFront.normal_errors. unfold h, squared. cbn [vx vy].
      destruct (Req_EM_T (d0 * d0) 0); [lra|]. destruct (Req_EM_T (d1 * d1) 0); [lra|]. eauto. }
    destruct F as (qs & F). exists qs. split; auto. intros q Hq.
    destruct (C118_polar h axes "upper" 1 _ qs q Q0 Q1 Q2 O ltac:(auto) F Hq) as (lon & lat & E & U & S & C).
    exists lon, lat. split; auto. cbv zeta in *. cbn [o_degrees o_traditional o_upper] in *.
    split; auto. split; auto. unfold on_polar, c0, c1, c2. rewrite C. ring.
Qed.
(** In the browser's own layout the two readings of a plotted point are the same.  In the
    traditional one they differ by a reflection, so that the point that Python gives is,
    plotted like the browser's, not on the browser's curve. *)
Theorem C178_layout : forall p, normal_dir false p = drawn false false true p /\
  normal_dir true p = mirror ey (drawn false true true p).
Proof.
  intros [lon lat]. unfold normal_dir, drawn, plane_dir, mirror, ey. cbn [fst snd]. split; [reflexivity|].
  apply vec3_eq; vunf; ring.
Qed.
Definition lean : mat3 := M3 (V3 1 0 0) (V3 0 (4/5) (-3/5)) (V3 0 (3/5) (4/5)).
Theorem C178_traditional_refuted : exists axes d0 d1 d2 p, orthonormal axes /\ 0 < vz (r2 axes) /\ 0 < d0 /\ 0 < d1 /\ 0 < d2 /\
  nth_error (fst (py_normal axes (mdiag (V3 d0 d1 d2)) 1 true 100)) 0 = Some (Some p) /\
  ~ on_polar axes (squared d0 d1 d2 1) (drawn false true true p).
Proof.
  assert (O : orthonormal lean) by (unfold orthonormal, lean; vunf; simpl; repeat split; lra).
  destruct (normal_point lean 1 1 (1/8) 1 true 100 0 O ltac:(lra) ltac:(lra) ltac:(lia)) as (p & E & D & _ & _).
  exists lean, 1, 1, (1/8), p. split; [exact O|]. split; [cbn; lra|]. do 3 (split; [lra|]). split; [exact E|].
  destruct (half_width_sq 1 1 (1/8) (angle_at 100 0) ltac:(lra) ltac:(lra) ltac:(lra)) as [HS HC]. cbv zeta in HS, HC.
  assert (A0 : angle_at 100 0 = 0) by (unfold angle_at; simpl INR; unfold Rdiv; ring).
  rewrite A0 in *. rewrite cos_0, sin_0 in *. set (a := half_width 1 1 (1/8) 1 0) in *.
  destruct (C178_layout p) as [_ M].
  assert (DR : drawn false true true p = mirror ey (normal_dir true p)).
  { rewrite M. unfold mirror, ey. apply vec3_eq; vunf; ring. }
  rewrite DR, D. unfold upward, turned, lean. cbn [r2 vz]. destruct (Rlt_dec (4/5) 0); [lra|]. cbn [r0 r1].
  unfold on_polar, c0, c1, c2, squared, mirror, ey. cbn [r0 r1 r2]. vunf. cbn [vx vy vz]. intros C. nra.
Qed.
Example C178_ex : exists p, nth_error (fst (py_normal (mneg ax45) (mdiag (V3 3 2 1)) 1 false 100)) 0 = Some (Some p) /\
  on_polar (mneg ax45) (squared 3 2 1 1) (normal_dir false p).
Proof.
  destruct ax45_ok as (O & _). assert (O' : orthonormal (mneg ax45)) by now apply orthonormal_neg.
  destruct (normal_point (mneg ax45) 3 2 1 1 false 100 0 O' ltac:(lra) ltac:(lra) ltac:(lia)) as (p & E & _).
  exists p. split; auto.
  destruct (C178_same_cone (mneg ax45) 3 2 1 1 false 100 false true 4 O' ltac:(lra) ltac:(lra) ltac:(lra)) as [A _].
  destruct (A _ (nth_error_In _ _ E)) as (p' & Ep & _ & B & _). injection Ep as <-. exact B.
Qed.

(** * C179: principal axes taken apart in the browser *)
Lemma fit_orthonormal : forall svd arr w f, lapack svd -> PCAOrientation svd arr w None = Ok f -> orthonormal (p_axes f).
Proof.
  intros svd arr [w|] f HL H.
  - destruct (weighted_inv _ _ _ _ HL H) as (_ & _ & u & s & S & _). exact (svd_v _ _ _ _ S).
  - destruct (fit_inv _ _ _ HL H) as (_ & u & m & S & _). exact (svd_v _ _ _ _ S).
Qed.
Theorem C179_deconvolved : forall svd arr w f, lapack svd -> PCAOrientation svd arr w None = Ok f ->
  0 < vx (p_s f) -> 0 < vy (p_s f) -> 0 < vz (p_s f) ->
  deconvolve_axes (test_principal f) = Some (p_s f, p_axes f).
Proof.
  intros svd arr w f HL H A B C. pose proof (fit_orthonormal _ _ _ _ HL H) as O.
  assert (E : test_principal f = scale_columns (p_axes f) (p_s f)).
  { unfold test_principal, principal_axes, scale_columns. apply mat3_eq; apply vec3_eq; munf; simpl; ring. }
  rewrite E. apply C119_deconvolve; auto.
  destruct (orthonormal_T _ O) as (X & Y & Z & _). repeat split; auto.
Qed.
(** A fit without extent along one of its axes, such as points exactly on a plane, cannot
    be taken apart. *)
Theorem C179_degenerate : forall f, vx (p_s f) = 0 \/ vy (p_s f) = 0 \/ vz (p_s f) = 0 ->
  deconvolve_axes (test_principal f) = None.
Proof.
  intros f H. unfold deconvolve_axes, transpose. rewrite !js_norm_row. cbn [vx vy vz].
  assert (Z : forall v, vx v = 0 -> vy v = 0 -> vz v = 0 -> norm v = 0).
  { intros v X Y W. apply norm_zero_iff. apply vec3_eq; auto. }
  destruct H as [H | [H | H]].
  - rewrite (Z (r0 (mT (test_principal f)))) by (cbn; rewrite H; ring). destruct (Req_EM_T 0 0); [reflexivity|lra].
  - rewrite (Z (r1 (mT (test_principal f)))) by (cbn; rewrite H; ring).
    destruct (Req_EM_T (norm _) 0); auto. destruct (Req_EM_T 0 0); [reflexivity|lra].
  - rewrite (Z (r2 (mT (test_principal f)))) by (cbn; rewrite H; ring).
    destruct (Req_EM_T (norm _) 0); auto. destruct (Req_EM_T (norm _) 0); auto. destruct (Req_EM_T 0 0); [reflexivity|lra].
Qed.
Example C179_ex : exists f, PCAOrientation svd_ref (axis_data 3 2 1) None None = Ok f /\
  deconvolve_axes (test_principal f) = Some (V3 (sqrt 2 * 3) (sqrt 2 * 2) (sqrt 2 * 1), p_axes f).
Proof.
  destruct (axis_fit 3 2 1) as [f F]. exists f. split; auto.
  pose proof (axis_singular svd_ref 3 2 1 f lapack_ref ltac:(lra) ltac:(lra) F) as S.
  assert (0 < sqrt 2) by (apply sqrt_lt_R0; lra).
  rewrite (C179_deconvolved _ _ _ _ lapack_ref F); rewrite S; cbn; auto; lra.
Qed.

(** * C180: error angles of a plane sent to the browser *)
Lemma edge_sin : forall a c, 0 < a -> 0 < c ->
  let s := sin (atan2 (sqrt c) (sqrt a)) in 0 < s /\ s * s * (a + c) = c.
Proof.
  intros a c A C. cbv zeta.
  assert (SA : 0 < sqrt a) by now apply sqrt_lt_R0. assert (SC : 0 < sqrt c) by now apply sqrt_lt_R0.
  rewrite sin_atan2 by (left; lra). rewrite !sqrt_sqrt by lra.
  assert (P : 0 < sqrt (a + c)) by (apply sqrt_lt_R0; lra). split.
  - apply Rdiv_lt_0_compat; auto.
  - replace (sqrt c / sqrt (a + c) * (sqrt c / sqrt (a + c)) * (a + c)) with
      (sqrt c * sqrt c * (a + c) / (sqrt (a + c) * sqrt (a + c))) by (field; lra).
    rewrite !sqrt_sqrt by lra. field. lra.
Qed.
Lemma abs_of_sq : forall z s a c, 0 <= s -> s * s * (a + c) = c -> 0 < a + c -> z * z * (a + c) = c -> Rabs z = s.
Proof.
  intros z s a c S E P Z. assert (Q : z * z = s * s) by (apply (Rmult_eq_reg_r (a + c)); lra).
  apply Rsqr_eq_abs_0 in Q. rewrite Q. now apply Rabs_pos_eq.
Qed.
(** The band drawn for lengths [h] *)
Lemma browser_band : forall h axes sheet o, 0 < vx h -> 0 < vy h -> 0 < vz h -> orthonormal axes ->
  sheet = "upper"%string \/ sheet = "lower"%string ->
  let e0 := atan2 (sqrt (vz h)) (sqrt (vx h)) in let e1 := atan2 (sqrt (vz h)) (sqrt (vy h)) in
  let read q := drawn (o_degrees o) (o_traditional o) (o_upper o) q in
  (forall q, In q (js_plane h axes sheet o) -> exists lon lat, q = (lon, Some lat) /\ unit3 (read (lon, lat)) /\
     Rmin (sin e0) (sin e1) <= Rabs (dot (read (lon, lat)) (r2 axes)) <= Rmax (sin e0) (sin e1)) /\
  ((0 < o_n o)%nat -> exists lon lat, nth_error (js_plane h axes sheet o) 0 = Some (lon, Some lat) /\
     dot (read (lon, lat)) (r1 axes) = 0 /\ Rabs (dot (read (lon, lat)) (r2 axes)) = sin e0) /\
  (forall m, (0 < m)%nat -> o_n o = (4 * m)%nat -> exists lon lat,
     nth_error (js_plane h axes sheet o) m = Some (lon, Some lat) /\
     dot (read (lon, lat)) (r0 axes) = 0 /\ Rabs (dot (read (lon, lat)) (r2 axes)) = sin e1).
Proof.
  intros h axes sheet o H0 H1 H2 O S e0 e1 read.
  destruct (edge_sin (vx h) (vz h) H0 H2) as [P0 Q0]. destruct (edge_sin (vy h) (vz h) H1 H2) as [P1 Q1].
  cbv zeta in *. fold e0 in P0, Q0. fold e1 in P1, Q1.
  assert (G : forall q, In q (js_plane h axes sheet o) -> exists lon lat, q = (lon, Some lat) /\
     unit3 (read (lon, lat)) /\ on_cone axes h (read (lon, lat))).
  { intros q Hq. destruct (C116_girdle h axes sheet o q H0 H1 H2 O Hq) as (lon & lat & E & U & _ & A & B).
    exists lon, lat. split; auto. split; auto. destruct S; [apply A | apply B]; auto. }
  split; [|split].
  - intros q Hq. destruct (G q Hq) as (lon & lat & E & U & C). exists lon, lat. split; auto. split; auto.
    set (u := read (lon, lat)) in *. pose proof (unit_coords axes u O U) as PV. fold (c2 axes u).
    apply cone_of_lengths in C; auto. set (x := c0 axes u) in *. set (y := c1 axes u) in *. set (z := c2 axes u) in *.
    clearbody x y z. clear u U Hq G. set (a := vx h) in *. set (b := vy h) in *. set (c := vz h) in *. clearbody a b c.
    assert (X : 0 <= x * x) by nra. assert (Y : 0 <= y * y) by nra.
    assert (AB : 0 < a * b) by nra. 
    assert (I0 : z * z * (a + c) * b = b * c + c * (y * y) * (a - b)).
    {
      replace (z * z * (a + c) * b) with (a * b * (z * z) + c * b * (z * z)) by ring. rewrite <- C.
      replace (z * z) with (1 - x * x - y * y) by lra. ring. }
    assert (I1 : z * z * (b + c) * a = a * c + c * (x * x) * (b - a)).
    { replace (z * z * (b + c) * a) with (a * b * (z * z) + c * a * (z * z)) by ring. rewrite <- C.
      replace (z * z) with (1 - x * x - y * y) by lra. ring. }
    set (s0 := sin e0) in *. set (s1 := sin e1) in *. clearbody s0 s1.
    assert (CX : 0 <= c * (x * x)) by nra. assert (CY : 0 <= c * (y * y)) by nra.
    assert (D0 : (z * z - s0 * s0) * ((a + c) * b) = c * (y * y) * (a - b)) by nra.
    assert (D1 : (z * z - s1 * s1) * ((b + c) * a) = c * (x * x) * (b - a)) by nra.
    assert (K0 : 0 < (a + c) * b) by nra. assert (K1 : 0 < (b + c) * a) by nra.
    destruct (Rle_dec a b) as [L|L].
    + assert (Z0 : z * z <= s0 * s0) by (destruct (Rle_lt_dec (z * z) (s0 * s0)); auto; exfalso;
        assert (0 < (z * z - s0 * s0) * ((a + c) * b)) by (apply Rmult_lt_0_compat; lra); nra).
      assert (Z1 : s1 * s1 <= z * z) by (destruct (Rle_lt_dec (s1 * s1) (z * z)); auto; exfalso;
        assert (0 < (s1 * s1 - z * z) * ((b + c) * a)) by (apply Rmult_lt_0_compat; lra); nra).
      apply sq_le in Z0; [|lra]. apply sq_ge in Z1; [|lra].
      split; [eapply Rle_trans; [apply Rmin_r | exact Z1] | eapply Rle_trans; [exact Z0 | apply Rmax_l]].
    + assert (Z0 : s0 * s0 <= z * z) by (destruct (Rle_lt_dec (s0 * s0) (z * z)); auto; exfalso;
        assert (0 < (s0 * s0 - z * z) * ((a + c) * b)) by (apply Rmult_lt_0_compat; lra); nra).
      assert (Z1 : z * z <= s1 * s1) by (destruct (Rle_lt_dec (z * z) (s1 * s1)); auto; exfalso;
        assert (0 < (z * z - s1 * s1) * ((b + c) * a)) by (apply Rmult_lt_0_compat; lra); nra).
      apply sq_ge in Z0; [|lra]. apply sq_le in Z1; [|lra].
      split; [eapply Rle_trans; [apply Rmin_l | exact Z0] | eapply Rle_trans; [exact Z1 | apply Rmax_r]].
  - intros N. destruct (js_coords h axes sheet o 0 0 (-1) H0 H1 ltac:(lra) O ltac:(ring)) as (lon & lat & k & E & K & U & A & B & _).
    { now apply js_first. }
    exists lon, lat. split; auto. destruct (G _ (nth_error_In _ _ E)) as (lon' & lat' & Eq & _ & C). injection Eq as <- <-.
    cbv zeta in *. fold (read (lon, lat)) in U, A, B. set (u := read (lon, lat)) in *.
    rewrite Rmult_0_r, Rmult_0_r in B. fold (c1 axes u) (c2 axes u). split; auto.
    pose proof (unit_coords axes u O U) as PV. apply cone_of_lengths in C; auto. rewrite B in *.
    apply (abs_of_sq _ _ (vx h) (vz h)); try lra.
    apply (Rmult_eq_reg_r (vy h)); [|lra].
    replace (c2 axes u * c2 axes u * (vx h + vz h) * vy h) with (vx h * vy h * (c2 axes u * c2 axes u) + vz h * vy h * (c2 axes u * c2 axes u)) by ring.
    rewrite <- C. replace (c2 axes u * c2 axes u) with (1 - c0 axes u * c0 axes u) by lra. ring.
  - intros m M N. destruct (js_coords h axes sheet o m 1 0 H0 H1 ltac:(lra) O ltac:(ring)) as (lon & lat & k & E & K & U & A & B & _).
    { rewrite N. now apply js_quarter. }
    exists lon, lat. split; auto. destruct (G _ (nth_error_In _ _ E)) as (lon' & lat' & Eq & _ & C). injection Eq as <- <-.
    cbv zeta in *. fold (read (lon, lat)) in U, A, B. set (u := read (lon, lat)) in *.
    rewrite Rmult_0_r, Rmult_0_r in A. fold (c0 axes u) (c2 axes u). split; auto.
    pose proof (unit_coords axes u O U) as PV. apply cone_of_lengths in C; auto. rewrite A in *.
    apply (abs_of_sq _ _ (vy h) (vz h)); try lra.
    apply (Rmult_eq_reg_r (vx h)); [|lra].
    replace (c2 axes u * c2 axes u * (vy h + vz h) * vx h) with (vx h * vy h * (c2 axes u * c2 axes u) + vz h * vx h * (c2 axes u * c2 axes u)) by ring.
    rewrite <- C. replace (c2 axes u * c2 axes u) with (1 - c1 axes u * c1 axes u) by lra. ring.
Qed.
Lemma flip_ok : forall axes, orthonormal axes -> orthonormal (flip_axes axes) /\ r0 (flip_axes axes) = r0 axes /\
  r1 (flip_axes axes) = r1 axes /\ forall u, Rabs (dot u (r2 (flip_axes axes))) = Rabs (dot u (r2 axes)).
Proof.
  intros axes O. unfold flip_axes. destruct (Rlt_dec (vz (r2 axes)) 0); [|auto]. cbn [r0 r1 r2].
  split; [|do 2 (split; [reflexivity|]); intros u; now rewrite dot_neg_r, Rabs_Ropp].
  destruct O as (A & B & C & D & E & F). unfold orthonormal. cbn [r0 r1 r2].
  unfold nrm2 in *. rewrite !dot_neg_r. rewrite (dot_comm (vneg _)), dot_neg_r, E, F. repeat split; auto; lra.
Qed.

(** The angular errors that a plane's mapping reports are what the browser draws: [e0] over
    the first axis, [e1] over the second, and in between elsewhere. *)
Definition drawn_with (axes : mat3) (o : opts) (e0 e1 : R) (sheet : list (R * num)) : Prop :=
  let read q := drawn true (o_traditional o) (o_upper o) q in
  (forall q, In q sheet -> exists lon lat, q = (lon, Some lat) /\ unit3 (read (lon, lat)) /\
     sin (radians (Rmin e0 e1)) <= Rabs (dot (read (lon, lat)) (r2 axes)) <= sin (radians (Rmax e0 e1))) /\
  ((0 < o_n o)%nat -> exists lon lat, nth_error sheet 0 = Some (lon, Some lat) /\
     dot (read (lon, lat)) (r1 axes) = 0 /\ Rabs (dot (read (lon, lat)) (r2 axes)) = sin (radians e0)) /\
  (forall m, (0 < m)%nat -> o_n o = (4 * m)%nat -> exists lon lat, nth_error sheet m = Some (lon, Some lat) /\
     dot (read (lon, lat)) (r0 axes) = 0 /\ Rabs (dot (read (lon, lat)) (r2 axes)) = sin (radians e1)).
Lemma drawn_with_lengths : forall h axes o sheet, 0 < vx h -> 0 < vy h -> 0 < vz h -> orthonormal axes ->
  sheet = "upper"%string \/ sheet = "lower"%string ->
  drawn_with axes o (degrees (atan2 (sqrt (vz h)) (sqrt (vx h)))) (degrees (atan2 (sqrt (vz h)) (sqrt (vy h))))
    (js_plane h (flip_axes axes) sheet (mkOpts (o_n o) true (o_traditional o) (o_upper o))).
Proof.
  intros h axes o sheet H0 H1 H2 O S. destruct (flip_ok axes O) as (O' & E0 & E1 & E2).
  destruct (browser_band h (flip_axes axes) sheet (mkOpts (o_n o) true (o_traditional o) (o_upper o)) H0 H1 H2 O' S) as (A & B & C).
  cbv zeta in *. cbn [o_degrees o_traditional o_upper o_n] in *.
  assert (Q : forall y x, 0 < y -> 0 < x -> 0 < atan2 y x < PI / 2).
  { intros y x Y X. rewrite atan2_pos by auto. split; [|apply atan_bound].
    rewrite <- atan_0. apply atan_increasing. apply Rdiv_lt_0_compat; auto. }
  set (a0 := atan2 (sqrt (vz h)) (sqrt (vx h))) in *. set (a1 := atan2 (sqrt (vz h)) (sqrt (vy h))) in *.
  assert (R0 : 0 < a0 < PI / 2) by (apply Q; apply sqrt_lt_R0; auto).
  assert (R1 : 0 < a1 < PI / 2) by (apply Q; apply sqrt_lt_R0; auto).
  pose proof PI_pos.
  assert (MN : sin (radians (Rmin (degrees a0) (degrees a1))) = Rmin (sin a0) (sin a1) /\
               sin (radians (Rmax (degrees a0) (degrees a1))) = Rmax (sin a0) (sin a1)).
  { destruct (Rle_dec a0 a1) as [L|L].
    - rewrite (Rmin_left (degrees a0)), (Rmax_right (degrees a0)) by now apply degrees_le.
      assert (sin a0 <= sin a1) by (destruct (Req_dec a0 a1) as [->|n]; [lra | apply Rlt_le, sin_increasing_1; lra]).
      rewrite Rmin_left, Rmax_right by auto. now rewrite !radians_degrees.
    - assert (L' : a1 <= a0) by lra. rewrite (Rmin_right (degrees a0)), (Rmax_left (degrees a0)) by now apply degrees_le.
      assert (sin a1 <= sin a0) by (apply Rlt_le, sin_increasing_1; lra).
      rewrite Rmin_right, Rmax_left by auto. now rewrite !radians_degrees. }
  destruct MN as [MN MX]. unfold drawn_with. cbv zeta. rewrite MN, MX, !radians_degrees. split; [|split].
  - intros q Hq. destruct (A q Hq) as (lon & lat & E & U & R). exists lon, lat. rewrite E2 in R. auto.
  - intros N. destruct (B N) as (lon & lat & E & D & R). exists lon, lat. rewrite E1 in D. rewrite E2 in R. auto.
  - intros m M N. destruct (C m M N) as (lon & lat & E & D & R). exists lon, lat. rewrite E0 in D. rewrite E2 in R. auto.
Qed.
Lemma grouped_value : forall recon o m h axes,
  lookup "hyperbolic_axes" m = Some (VFloats (Some (MMapping.row h))) -> lookup "axes" m = Some (VRows (rows axes)) ->
  grouped_plane recon o m = Ok (combined_errors h (flip_axes axes) o).
Proof.
  intros recon o m h axes E1 E2. unfold grouped_plane, browser_props, field_vec, field_mat. rewrite E1, E2.
  destruct h as [a b c], axes as [[] [] []]. reflexivity.
Qed.
Lemma angle_inside : forall y x, 0 <= y -> 0 <= x -> 0 < degrees (atan2 y x) < 90 -> 0 < y /\ 0 < x.
Proof.
  intros y x Y X [A B]. pose proof PI_pos. rewrite <- degrees_0 in A. rewrite <- degrees_PI2 in B.
  assert (A' : 0 < atan2 y x).
  { destruct (Rle_lt_dec (atan2 y x) 0) as [l|l]; auto. apply degrees_le in l. lra. }
  assert (B' : atan2 y x < PI / 2).
  { destruct (Rle_lt_dec (PI / 2) (atan2 y x)) as [l|l]; auto. apply degrees_le in l. lra. }
  unfold atan2 in *. destruct (Rlt_dec 0 x) as [p|p].
  - split; auto. destruct Y as [Y|Y]; auto. subst y. unfold Rdiv in A'. rewrite Rmult_0_l, atan_0 in A'. lra.
  - destruct (Rlt_dec x 0); [lra|]. destruct (Rlt_dec 0 y); [lra|]. destruct (Rlt_dec y 0); lra.
Qed.

Theorem C180_fit : forall svd arr w st sha hp a ob values m recon o mn mx,
  lapack svd -> PCAOrientation svd arr w None = Ok (o_fit ob) -> MGroup.get hp a = Some ob ->
  NoDup (PMapping.keys values) -> lookup "axes" values = None -> lookup "hyperbolic_axes" values = None ->
  to_mapping st sha hp a values = Ok m ->
  fit_angular_errors st (o_fit ob) = Some (mn, mx) -> 0 < mn < 90 -> 0 < mx < 90 ->
  exists b, grouped_plane recon o m = Ok b /\
    drawn_with (p_axes (o_fit ob)) o mn mx (b_upper b) /\ drawn_with (p_axes (o_fit ob)) o mn mx (b_lower b).
Proof.
  intros svd arr w st sha hp a ob values m recon o mn mx HL HF HG ND K1 K2 HM HE RN RX.
  pose proof (fit_orthonormal _ _ _ _ HL HF) as O. set (f := o_fit ob) in *.
  destruct (C53_precedence st sha hp a ob values m HG ND HM) as (_ & _ & _ & P).
  destruct (P "axes"%string) as [_ PA]; try (right; discriminate). specialize (PA K1).
  destruct (P "hyperbolic_axes"%string) as [_ PH]; try (right; discriminate). specialize (PH K2).
  cbn in PA, PH. fold f in PA, PH.
  unfold fit_angular_errors in HE. destruct (hyperbolic_axes st f) as [h|]; cbn [obind option_map] in HE, PH; [|discriminate].
  unfold angular_errors, vsqrt in HE.
  unfold fsqrt in HE. destruct (Rlt_dec (vx h) 0); [discriminate|]. destruct (Rlt_dec (vy h) 0); [discriminate|].
  destruct (Rlt_dec (vz h) 0); [discriminate|]. cbn [obind vx vy vz] in HE. injection HE as <- <-.
  destruct (angle_inside _ _ (sqrt_pos _) (sqrt_pos _) RN) as [Z X].
  destruct (angle_inside _ _ (sqrt_pos _) (sqrt_pos _) RX) as [_ Y].
  assert (SP : forall t, ~ t < 0 -> 0 < sqrt t -> 0 < t).
  { intros t A B. destruct (Rle_lt_or_eq_dec 0 t ltac:(lra)) as [|e]; auto. rewrite <- e, sqrt_0 in B. lra. }
  apply SP in X; [|auto]. apply SP in Y; [|auto]. apply SP in Z; [|auto].
  rewrite (grouped_value recon o m h (p_axes f) PH PA). eexists. split; [reflexivity|].
  unfold combined_errors. cbn [b_upper b_lower]. split; apply drawn_with_lengths; auto.
Qed.
Example C180_ex : exists f mn mx, PCAOrientation svd_ref (axis_data 3 2 (1/10)) None None = Ok f /\
  fit_angular_errors (const_stats 7) f = Some (mn, mx) /\ 0 < mn < 90 /\ 0 < mx < 90.
Proof.
  destruct (axis_fit 3 2 (1/10)) as [f F]. exists f.
  destruct (fit_has_facts _ _ _ lapack_ref F) as (e & FF). pose proof FF as [E S N N3].
  rewrite (axis_eig _ 3 2 (1/10) _ lapack_ref ltac:(lra) ltac:(lra) F) in E. injection E as <-.
  unfold fit_angular_errors, hyperbolic_axes, noise_axes.
  rewrite (stat_axes_value (const_stats 7) default_kw f _ _ 7 FF eq_refl ltac:(lra)). cbn [obind].
  pose proof (axes_value_nonneg default_kw 7 _ _ S N3 ltac:(lra)) as NN. rewrite angular_errors_value by auto. cbn [obind].
  do 2 eexists. do 1 (split; [exact F|]). split; [reflexivity|].
  assert (V : 0 < vx (axes_value default_kw 7 (V3 (2/5 * (3 * 3)) (2/5 * (2 * 2)) (2/5 * (1/10 * (1/10)))) (INR (length (axis_data 3 2 (1/10))))) /\
              0 < vy (axes_value default_kw 7 (V3 (2/5 * (3 * 3)) (2/5 * (2 * 2)) (2/5 * (1/10 * (1/10)))) (INR (length (axis_data 3 2 (1/10))))) /\
              0 < vz (axes_value default_kw 7 (V3 (2/5 * (3 * 3)) (2/5 * (2 * 2)) (2/5 * (1/10 * (1/10)))) (INR (length (axis_data 3 2 (1/10)))))).
  { unfold axes_value, default_kw. cbn [k_method err_term vx vy vz]. unfold noise_term, z_nominal. cbn [k_all_axes vz].
    replace (INR (length (axis_data 3 2 (1 / 10))) - 2) with 4 by (simpl; lra).
    replace (2 / 5 * (3 * 3) * (2 / 5 * (1 / 10 * (1 / 10)) / 4)) with (3 / 50 * (3 / 50)) by field.
    replace (2 / 5 * (2 * 2) * (2 / 5 * (1 / 10 * (1 / 10)) / 4)) with (1 / 25 * (1 / 25)) by field.
    rewrite !sqrt_sq_pos by lra. pose proof (sqrt_pos (2 / 5 * (1 / 10 * (1 / 10)) * (2 / 5 * (1 / 10 * (1 / 10)) / 4))).
    repeat split; try (apply Rabs_pos_lt); lra. }
  destruct V as (VX & VY & VZ). set (h := axes_value _ _ _ _) in *. clearbody h. clear - VX VY VZ. pose proof PI_pos.
  assert (Q : forall y x, 0 < y -> 0 < x -> 0 < degrees (atan2 y x) < 90).
  { intros y x Y X. rewrite atan2_pos by auto.
    assert (0 < atan (y / x) < PI / 2) by (split; [rewrite <- atan_0; apply atan_increasing; apply Rdiv_lt_0_compat; auto | apply atan_bound]).
    rewrite <- degrees_0, <- degrees_PI2.
    split; apply degrees_lt; lra. }
  split; apply Q; apply sqrt_lt_R0; auto.
Qed.

(** Without lengths and without a strike to make them from nothing is drawn: with axes or
    without, TypeError. *)
Theorem C180_missing : forall recon o m,
  field_vec "hyperbolic_axes" m = None -> field_vec "covariance" m = None -> field_num "strike" m = None ->
  grouped_plane recon o m = Raise TypeError.
Proof.
  intros recon o m E1 E2 E3. unfold grouped_plane, browser_props, construct_axes. cbn [pr_hyp pr_axes pr_cov pr_strike]. rewrite E1, E2, E3.
  destruct (field_mat "axes" m); reflexivity.
Qed.
Example C180_missing_ex : field_vec "hyperbolic_axes" [] = None /\ field_vec "covariance" [] = None /\ field_num "strike" [] = None.
Proof. auto. Qed.
(** The lengths of a reconstructed plane are not squared, so that the browser draws the
    square root of the tangent: the errors reported are drawn only when they are right
    angles. *)
Theorem C180_reconstructed : forall s d r a b ne p sha values m recon o,
  0 < a < 180 -> 0 < b < 180 -> 0 < ne -> ReconstructedPlane s d r [a; b] ne = Some p ->
  NoDup (PMapping.keys values) -> lookup "axes" values = None -> lookup "hyperbolic_axes" values = None ->
  recon_mapping sha p values = Ok m ->
  let e0 := degrees (atan (sqrt (tan (radians (b / 2))))) in
  let e1 := degrees (atan (sqrt (tan (radians (a / 2))))) in
  (exists bs, grouped_plane recon o m = Ok bs /\
     drawn_with (rp_axes p) o e0 e1 (b_upper bs) /\ drawn_with (rp_axes p) o e0 e1 (b_lower bs)) /\
  (e0 = b / 2 <-> b = 90) /\ (e1 = a / 2 <-> a = 90).
Proof.
  intros s d r a b ne p sha values m recon o HA HB HN HP ND K1 K2 HM e0 e1.
  destruct (recon_value s d r [a; b] ne) as (p' & E & _ & _ & _ & _ & _ & _ & H). rewrite HP in E. injection E as <-.
  destruct (C38_reconstructed_axes s d r [a; b] ne) as (p' & E' & _ & O & _). rewrite HP in E'. injection E' as <-.
  assert (R : forall x, 0 < x < 180 -> 0 < radians x / 2 < PI / 2).
  { intros x Hx. assert (radians 0 < radians x < radians 180) by (split; apply radians_lt; lra).
    rewrite radians_0, radians_180 in H0. lra. }
  assert (RH : forall x, radians x / 2 = radians (x / 2)) by (intros; unfold radians; field).
  assert (HY : rp_hyperbolic p = Some [ne / tan (radians (b / 2)); ne / tan (radians (a / 2)); ne]).
  { rewrite H. simpl. rewrite !over_tan_value by (apply R; auto). rewrite !RH. reflexivity. }
  assert (T : forall x, 0 < x < 180 -> 0 < tan (radians (x / 2))) by (intros x Hx; rewrite <- RH; apply tan_gt_0; apply R; auto).
  pose proof (T a HA) as TA. pose proof (T b HB) as TB.
  set (h := V3 (ne / tan (radians (b / 2))) (ne / tan (radians (a / 2))) ne).
  assert (P0 : 0 < vx h) by (cbn; now apply Rdiv_lt_0_compat). assert (P1 : 0 < vy h) by (cbn; now apply Rdiv_lt_0_compat).
  assert (EE : forall t, 0 < t -> atan2 (sqrt ne) (sqrt (ne / t)) = atan (sqrt t)).
  { intros t Ht. assert (0 < ne / t) by now apply Rdiv_lt_0_compat.
    rewrite atan2_pos by now apply sqrt_lt_R0. f_equal. rewrite <- sqrt_div by lra. f_equal. field. split; lra. }
  split; [|].
  - unfold recon_mapping in HM.
    destruct (base_ok _ _ _ _ _ _ _ _ _ _ ND HM) as (_ & L & _).
    pose proof (L "axes"%string) as LA. rewrite K1 in LA. cbn in LA.
    pose proof (L "hyperbolic_axes"%string) as LH. rewrite K2 in LH. cbn in LH. rewrite HY in LH.
    rewrite (grouped_value recon o m h (rp_axes p) LH LA). eexists. split; [reflexivity|].
    unfold combined_errors. cbn [b_upper b_lower].
    unfold e0, e1. rewrite <- (EE _ TA), <- (EE _ TB).
    change (ne / tan (radians (b / 2))) with (vx h). change (ne / tan (radians (a / 2))) with (vy h).
    change ne with (vz h) at 1 2. 
    split; apply drawn_with_lengths; auto.
  - assert (G : forall x, 0 < x < 180 -> degrees (atan (sqrt (tan (radians (x / 2))))) = x / 2 <-> x = 90).
    { intros x Hx. pose proof (T x Hx) as TX. pose proof (R x Hx) as RX. rewrite RH in RX. split.
      - intros F. assert (F' : atan (sqrt (tan (radians (x / 2)))) = radians (x / 2)) by (rewrite <- F at 2; now rewrite radians_degrees).
        apply (f_equal tan) in F'. rewrite tan_atan in F'. set (t := tan (radians (x / 2))) in *.
        assert (Q : t = t * t) by (rewrite <- F' at 2 3; now rewrite sqrt_sqrt by lra).
        assert (T1 : t = 1) by nra. unfold t in T1. rewrite <- tan_PI4 in T1.
        assert (J : radians (x / 2) = PI / 4).
        { rewrite <- (atan_tan (radians (x / 2))), T1, atan_tan by lra. reflexivity. }
        unfold radians in J. pose proof PI_pos. apply (Rmult_eq_reg_r (PI / 360)); [|lra]. lra.
      - intros ->. replace (radians (90 / 2)) with (PI / 4) by (unfold radians; field). rewrite tan_PI4, sqrt_1, atan_1.
        unfold degrees. pose proof PI_pos. field. lra. }
    split; apply G; auto.
Qed.
Example C180_reconstructed_ex : exists p m, ReconstructedPlane 30 40 20 [5; 10] 1 = Some p /\
  recon_mapping (fun _ => O) p [] = Ok m.
Proof.
  destruct (recon_value 30 40 20 [5; 10] 1) as (p & E & _). exists p.
  destruct (C41_reports_arguments 30 40 20 [5; 10] 1 p (fun _ => O) E) as (_ & _ & A & _).
  destruct (A 5 10 eq_refl) as (m & M & _). exists m. auto.
Qed.

Print Assumptions C178_same_cone.
Print Assumptions C178_layout.
Print Assumptions C178_traditional_refuted.
Print Assumptions C179_deconvolved.
Print Assumptions C179_degenerate.
Print Assumptions C180_fit.
Print Assumptions C180_missing.
Print Assumptions C180_reconstructed.
