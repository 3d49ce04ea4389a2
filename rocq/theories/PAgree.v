(** The Python package and the browser front end draw the same things (C176-C180). *)
From Coq Require Import Reals Lra Lia List Arith String Psatz.
From Verif Require Import RVec Trig SpecPlane MPca LSvd LPca LFit LAngles LExamples MAxes LAxes MSphere MRecon LRecon PRecon
  MGroup MMapping PMapping MStereo SpecStereo PStereo MFront SpecFront PFront PFront2 MAgree.
Import ListNotations.
Open Scope R_scope.
Notation length := List.length.
Notation py_plane := MStereo.plane_errors.
Notation js_plane := MFront.plane_errors.
Notation py_normal := MStereo.normal_errors.
Notation js_normal := MFront.normal_errors.

(** * Lemmas *)
Lemma cone_of_lengths : forall axes h u, 0 < vx h -> 0 < vy h -> 0 < vz h ->
  (on_cone axes h u <->
   vy h * vz h * (c0 axes u * c0 axes u) + vx h * vz h * (c1 axes u * c1 axes u) = vx h * vy h * (c2 axes u * c2 axes u)).
Proof.
  intros axes h u A B C. unfold on_cone. set (x := c0 axes u * c0 axes u). set (y := c1 axes u * c1 axes u).
  set (z := c2 axes u * c2 axes u). split; intros E.
  - apply (f_equal (fun w => w * (vx h * vy h * vz h))) in E.
    replace ((x / vx h + y / vy h) * (vx h * vy h * vz h)) with (vy h * vz h * x + vx h * vz h * y) in E by (field; lra).
    replace (z / vz h * (vx h * vy h * vz h)) with (vx h * vy h * z) in E by (field; lra). exact E.
  - apply (Rmult_eq_reg_r (vx h * vy h * vz h)); [|apply Rgt_not_eq; repeat apply Rmult_lt_0_compat; auto].
    replace ((x / vx h + y / vy h) * (vx h * vy h * vz h)) with (vy h * vz h * x + vx h * vz h * y) by (field; lra).
    replace (z / vz h * (vx h * vy h * vz h)) with (vx h * vy h * z) by (field; lra). exact E.
Qed.

(** A point of a Python sheet, along the axes *)
Lemma py_coords : forall axes d0 d1 d2 sheet l tr n i, orthonormal axes -> 0 < d0 -> 0 < d1 -> (i < n)%nat ->
  exists p k, nth_error (py_plane axes (mdiag (V3 d0 d1 d2)) sheet l tr n) i = Some (Some p) /\ 0 < k /\
    unit3 (plane_dir tr p) /\
    c0 axes (plane_dir tr p) = k * (d0 * cos (angle_at n i)) /\
    c1 axes (plane_dir tr p) = k * (d1 * sin (angle_at n i)) /\
    c2 axes (plane_dir tr p) = k * (PStereo.side sheet axes * (2 * d2 * l)).
Proof.
  intros axes d0 d1 d2 sheet l tr n i O P Q I. rewrite plane_point by auto. cbn [vx vy vz].
  set (u := angle_at n i). set (e := V3 _ _ _).
  assert (NZ : vm e axes <> vzero).
  { apply vm_nonzero; auto. unfold e. apply (plane_nonzero d0 d1 _ (sin u) (cos u) P Q).
    pose proof (sincos1 u). lra. }
  destruct (unit_scaled _ NZ) as [U N].
  destruct (plot_plane tr (norm (vm e axes)) _ N U) as (p & E & D).
  exists p, (/ norm (vm e axes)). split.
  - f_equal. rewrite <- E. do 2 f_equal. apply vec3_eq; vunf; field; lra.
  - split; [now apply Rinv_0_lt_compat|]. rewrite D. split; auto.
    destruct (coords_scaled axes (/ norm (vm e axes)) (vm e axes)) as (-> & -> & ->).
    destruct (coords_vm e axes O) as (-> & -> & ->). unfold e. cbn [vx vy vz]. auto.
Qed.
(** A point of a sheet drawn in the browser, along the axes *)
Lemma js_coords : forall h axes sheet o i c t, 0 < vx h -> 0 < vy h -> 0 <= vz h -> orthonormal axes ->
  c * c + t * t = 1 ->
  nth_error (ell_adaptive (o_n o) (Some (sqrt (vx h))) (Some (sqrt (vy h)))) i =
    Some (Some (sqrt (vy h) * c), Some (sqrt (vx h) * t)) ->
  exists lon lat k, nth_error (js_plane h axes sheet o) i = Some (lon, Some lat) /\ 0 < k /\
    let u := drawn (o_degrees o) (o_traditional o) (o_upper o) (lon, lat) in
    unit3 u /\ c0 axes u = k * (sqrt (vx h) * t) /\ c1 axes u = k * (sqrt (vy h) * c) /\
    c2 axes u = k * (sqrt (vz h) * PFront.side sheet axes o).
Proof.
  intros h axes sheet o i c t A B C O S E.
  set (e := V3 (sqrt (vx h) * t) (sqrt (vy h) * c) (sqrt (vz h) * PFront.side sheet axes o)).
  assert (NZ : vm e axes <> vzero).
  { apply vm_nonzero; auto. apply plane_nonzero; auto; apply sqrt_lt_R0; auto. }
  destruct (to_sph_dir o _ NZ) as (lon & lat & E1 & D). destruct (unit_scaled _ NZ) as [U P].
  exists lon, lat, (/ norm (vm e axes)). split; [|split; [now apply Rinv_0_lt_compat|]].
  - rewrite PFront.plane_value by lra. rewrite nth_error_map.
    replace (nth_error _ i) with (Some ((Some (sqrt (vy h) * c), Some (sqrt (vx h) * t)) : num * num)) by (symmetry; exact E).
    cbn [option_map]. rewrite plane_step_real. fold e. now rewrite E1.
  - cbv zeta. rewrite D. split; auto. destruct (coords_scaled axes (/ norm (vm e axes)) (vm e axes)) as (-> & -> & ->).
    destruct (coords_vm e axes O) as (-> & -> & ->). unfold e. cbn [vx vy vz]. auto.
Qed.
Lemma js_first : forall n a b, (0 < n)%nat ->
  nth_error (ell_adaptive n (Some a) (Some b)) 0 = Some (Some (b * 0), Some (a * -1)).
Proof.
  intros n a b N. destruct (C115_points n a b N) as (Pt & _).
  specialize (Pt 0%nat ltac:(apply half_lt; lia)). simpl INR in Pt.
  replace (4 * 0 / INR n) with 0 in Pt by (unfold Rdiv; ring).
  replace (1 - (-1 + 0) * (-1 + 0)) with 0 in Pt by ring. rewrite sqrt_0 in Pt.
  replace (-1 + 0) with (-1) in Pt by ring. exact Pt.
Qed.
Lemma js_quarter : forall m a b, (0 < m)%nat ->
  nth_error (ell_adaptive (4 * m) (Some a) (Some b)) m = Some (Some (b * 1), Some (a * 0)).
Proof.
  intros m a b Hm. destruct (C115_points (4 * m) a b ltac:(lia)) as (Pt & _).
  specialize (Pt m ltac:(apply half_lt; lia)).
  assert (Z : -1 + 4 * INR m / INR (4 * m) = 0).
  { rewrite mult_INR. simpl INR. assert (0 < INR m) by (apply (lt_INR 0); lia). field. lra. }
  rewrite Z in Pt. replace (1 - 0 * 0) with 1 in Pt by ring. rewrite sqrt_1 in Pt. exact Pt.
Qed.

(** * C176: the same error cone in both languages *)
(** Python's sheets of a plane whose covariance is diagonal with entries [d], at level [l],
    and the browser's sheets of the same axes with the lengths that [d] and [l] stand for
    (the squares, the last one doubled), are on one and the same cone and each sheet is on
    the same side of the plane, when the plane is not vertical. *)
Definition squared (d0 d1 d2 l : R) : vec3 := V3 (d0 * d0) (d1 * d1) (2 * d2 * l * (2 * d2 * l)).
Theorem C176_same_cone : forall axes d0 d1 d2 l tr n degrees m sheet,
  orthonormal axes -> vz (r2 axes) <> 0 -> 0 < d0 -> 0 < d1 -> 0 < d2 -> 0 < l ->
  sheet = "upper"%string \/ sheet = "lower"%string ->
  let o := mkOpts m degrees tr true in
  (forall q, In q (py_plane axes (mdiag (V3 d0 d1 d2)) sheet l tr n) -> exists p, q = Some p /\
     unit3 (plane_dir tr p) /\ on_cone axes (squared d0 d1 d2 l) (plane_dir tr p) /\
     (if String.eqb sheet "upper" then dot (plane_dir tr p) (upward axes) < 0 else 0 < dot (plane_dir tr p) (upward axes))) /\
  (forall q, In q (js_plane (squared d0 d1 d2 l) axes sheet o) -> exists lon lat, q = (lon, Some lat) /\
     let u := drawn degrees tr true (lon, lat) in
     unit3 u /\ on_cone axes (squared d0 d1 d2 l) u /\
     (if String.eqb sheet "upper" then dot u (upward axes) < 0 else 0 < dot u (upward axes))).
Proof.
  intros axes d0 d1 d2 l tr n degrees m sheet O Z P0 P1 P2 PL S o.
  assert (Q0 : 0 < d0 * d0) by nra. assert (Q1 : 0 < d1 * d1) by nra.
  assert (PW : 0 < 2 * d2 * l) by (repeat apply Rmult_lt_0_compat; lra).
  assert (Q2 : 0 < 2 * d2 * l * (2 * d2 * l)) by nra.
  split.
  - intros q H. apply In_nth_error in H. destruct H as (i & H).
    assert (I : (i < n)%nat) by (rewrite <- (C57_count axes (mdiag (V3 d0 d1 d2)) sheet l tr n); apply nth_error_Some; congruence).
    destruct (py_coords axes d0 d1 d2 sheet l tr n i O P0 P1 I) as (p & k & E & K & U & A & B & C).
    rewrite H in E. injection E as ->. exists p. split; auto. split; auto.
    assert (SS : PStereo.side sheet axes * PStereo.side sheet axes = 1).
    { unfold PStereo.side. destruct S as [-> | ->]; cbn; destruct (Rlt_dec 0 (vz (r2 axes))); ring. }
    split.
    + apply cone_of_lengths; auto. cbn [squared vx vy vz]. rewrite A, B, C.
      set (u := angle_at n i). pose proof (sincos1 u) as T.
      set (s := PStereo.side sheet axes) in *. set (w := 2 * d2 * l) in *.
      replace (d1 * d1 * (w * w) * (k * (d0 * cos u) * (k * (d0 * cos u))) + d0 * d0 * (w * w) * (k * (d1 * sin u) * (k * (d1 * sin u))))
        with (d0 * d0 * (d1 * d1) * (k * k) * (w * w) * (sin u * sin u + cos u * cos u)) by ring.
      rewrite T. transitivity (d0 * d0 * (d1 * d1) * (k * k) * (w * w) * (s * s)); [rewrite SS; ring | ring].
    + unfold c2 in C. unfold upward.
      assert (KW : 0 < k * (2 * d2 * l)) by (apply Rmult_lt_0_compat; auto).
      destruct S as [-> | ->]; cbn [String.eqb Ascii.eqb Bool.eqb];
        unfold PStereo.side in C; cbn [String.eqb Ascii.eqb Bool.eqb] in C;
        destruct (Rlt_dec (vz (r2 axes)) 0); destruct (Rlt_dec 0 (vz (r2 axes))); try lra;
        rewrite ?dot_neg_r; rewrite C; lra.
  - intros q H.
    destruct (C116_girdle (squared d0 d1 d2 l) axes sheet o q Q0 Q1 Q2 O H) as (lon & lat & E & U & _ & A & B).
    exists lon, lat. split; auto. cbv zeta in *. unfold o in *. cbn [o_degrees o_traditional o_upper] in *.
    split; auto. destruct S as [-> | ->]; cbn [String.eqb Ascii.eqb Bool.eqb]; auto.
Qed.
(** The nominal plane is the plane in both. *)
Theorem C176_nominal : forall axes d0 d1 d2 l tr n degrees m h, orthonormal axes -> 0 < d0 -> 0 < d1 ->
  0 < vx h -> 0 < vy h -> 0 < vz h ->
  (forall q, In q (py_plane axes (mdiag (V3 d0 d1 d2)) "nominal" l tr n) -> exists p, q = Some p /\
     unit3 (plane_dir tr p) /\ dot (plane_dir tr p) (r2 axes) = 0) /\
  (forall q, In q (js_plane h axes "nominal" (mkOpts m degrees tr true)) -> exists lon lat, q = (lon, Some lat) /\
     unit3 (drawn degrees tr true (lon, lat)) /\ dot (drawn degrees tr true (lon, lat)) (r2 axes) = 0).
Proof.
  intros axes d0 d1 d2 l tr n degrees m h O P0 P1 H0 H1 H2. split.
  - intros q H. apply In_nth_error in H. destruct H as (i & H).
    assert (I : (i < n)%nat) by (rewrite <- (C57_count axes (mdiag (V3 d0 d1 d2)) "nominal" l tr n); apply nth_error_Some; congruence).
    destruct (py_coords axes d0 d1 d2 "nominal" l tr n i O P0 P1 I) as (p & k & E & K & U & _ & _ & C).
    rewrite H in E. injection E as ->. exists p. do 2 (split; auto). unfold c2 in C. rewrite C.
    unfold PStereo.side. cbn [String.eqb Ascii.eqb Bool.eqb]. destruct (Rlt_dec 0 (vz (r2 axes))); ring.
  - intros q H. destruct (C116_girdle h axes "nominal" _ q H0 H1 H2 O H) as (lon & lat & E & U & A & _).
    exists lon, lat. auto.
Qed.
(** On a vertical plane the two languages give the name upper to opposite sheets. *)
Theorem C176_vertical_refuted : exists axes, orthonormal axes /\ vz (r2 axes) = 0 /\
  exists p lon lat, nth_error (py_plane axes (mdiag (V3 1 1 1)) "upper" 1 true 4) 0 = Some (Some p) /\
    nth_error (js_plane (squared 1 1 1 1) axes "upper" (mkOpts 4 false true true)) 0 = Some (lon, Some lat) /\
    0 < dot (plane_dir true p) (r2 axes) /\ dot (drawn false true true (lon, lat)) (r2 axes) < 0.
Proof.
  destruct axv_ok as [O Z]. exists axv. split; [exact O|]. split; [exact Z|].
  destruct (py_coords axv 1 1 1 "upper" 1 true 4 0 O ltac:(lra) ltac:(lra) ltac:(lia)) as (p & k & E & K & _ & _ & _ & C).
  set (o := mkOpts 4 false true true).
  assert (Q : 0 < vz (squared 1 1 1 1)) by (cbn; lra).
  destruct (js_coords (squared 1 1 1 1) axv "upper" o 0 0 (-1) ltac:(cbn; lra) ltac:(cbn; lra) ltac:(lra) O ltac:(ring))
    as (lon & lat & k' & E' & K' & _ & _ & _ & C').
  { apply js_first. unfold o. cbn. lia. }
  exists p, lon, lat. split; auto. split; auto. unfold c2 in *. rewrite C. cbv zeta in C'.
  change (drawn false true true (lon, lat)) with (drawn (o_degrees o) (o_traditional o) (o_upper o) (lon, lat)). rewrite C'.
  unfold PStereo.side, PFront.side, sheet_sign. cbn [String.eqb Ascii.eqb Bool.eqb]. rewrite Z.
  destruct (Rlt_dec 0 0); [lra|]. unfold o. cbn [o_upper]. split; [lra|].
  assert (0 < sqrt (vz (squared 1 1 1 1))) by now apply sqrt_lt_R0. nra.
Qed.

(** * C177: the cross-language test of the girdles cannot pass *)
(** Given the same numbers, the two cones are the same only for a circular band in which
    both lengths are four times the third. *)
Theorem C177_cones : forall axes d0 d1 d2, orthonormal axes -> 0 < d0 -> 0 < d1 -> 0 < d2 ->
  ((forall u, on_cone axes (test_lengths (mdiag (V3 d0 d1 d2))) u <-> on_cone axes (squared d0 d1 d2 1) u)
   <-> d0 = 4 * d2 /\ d1 = 4 * d2).
Proof.
  intros axes d0 d1 d2 O P0 P1 P2.
  assert (Q0 : 0 < d0 * d0) by nra. assert (Q1 : 0 < d1 * d1) by nra.
  assert (Q2 : 0 < 2 * d2 * 1 * (2 * d2 * 1)) by nra.
  assert (TL : test_lengths (mdiag (V3 d0 d1 d2)) = V3 d0 d1 d2) by reflexivity. rewrite TL.
  split.
  - intros H. split.
    + destruct (H (vm (V3 (sqrt d0) 0 (sqrt d2)) axes)) as [F _].
      rewrite !cone_of_lengths in F by (cbn; auto). cbn [squared vx vy vz] in F.
      destruct (coords_vm (V3 (sqrt d0) 0 (sqrt d2)) axes O) as (A & B & C). rewrite A, B, C in F. cbn [vx vy vz] in F.
      rewrite !sqrt_sqrt in F by lra. specialize (F ltac:(ring)).
      assert (d1 * d1 * d0 * d2 * (4 * d2 - d0) = 0) by lra.
      assert (0 < d1 * d1 * d0 * d2) by (repeat apply Rmult_lt_0_compat; auto).
      apply Rmult_integral in H0. lra.
    + destruct (H (vm (V3 0 (sqrt d1) (sqrt d2)) axes)) as [F _].
      rewrite !cone_of_lengths in F by (cbn; auto). cbn [squared vx vy vz] in F.
      destruct (coords_vm (V3 0 (sqrt d1) (sqrt d2)) axes O) as (A & B & C). rewrite A, B, C in F. cbn [vx vy vz] in F.
      rewrite !sqrt_sqrt in F by lra. specialize (F ltac:(ring)).
      assert (d0 * d0 * d1 * d2 * (4 * d2 - d1) = 0) by lra.
      assert (0 < d0 * d0 * d1 * d2) by (repeat apply Rmult_lt_0_compat; auto).
      apply Rmult_integral in H0. lra.
  - intros [-> ->] u. rewrite !cone_of_lengths by (cbn; auto). cbn [squared vx vy vz].
    set (x := c0 axes u * c0 axes u). set (y := c1 axes u * c1 axes u). set (z := c2 axes u * c2 axes u).
    assert (D4 : 0 < d2 * d2) by nra.
    assert (E1 : 4 * d2 * d2 * x + 4 * d2 * d2 * y - 4 * d2 * (4 * d2) * z = 4 * (d2 * d2) * (x + y - 4 * z)) by ring.
    assert (E2 : 4 * d2 * (4 * d2) * (2 * d2 * 1 * (2 * d2 * 1)) * x + 4 * d2 * (4 * d2) * (2 * d2 * 1 * (2 * d2 * 1)) * y
       - 4 * d2 * (4 * d2) * (4 * d2 * (4 * d2)) * z = 64 * (d2 * d2 * (d2 * d2)) * (x + y - 4 * z)) by ring.
    assert (0 < d2 * d2 * (d2 * d2)) by nra.
    split; intros E.
    + assert (x + y - 4 * z = 0) by nra. rewrite H0 in E2. lra.
    + assert (x + y - 4 * z = 0) by nra. rewrite H0 in E1. lra.
Qed.
(** Whatever the fit, the sheet and the number of points, and whatever lengths the browser
    is given, the first points of the two girdles are not the same: they are on opposite
    sides of the second axis. *)
Theorem C177_never_equal : forall axes d0 d1 d2 h sheet l tr n m, orthonormal axes ->
  0 < d0 -> 0 < d1 -> 0 < vx h -> 0 < vy h -> 0 <= vz h -> (0 < n)%nat -> (0 < m)%nat ->
  exists p lon lat,
    nth_error (py_plane axes (mdiag (V3 d0 d1 d2)) sheet l tr n) 0 = Some (Some p) /\
    nth_error (js_plane h axes sheet (mkOpts m false tr true)) 0 = Some (lon, Some lat) /\
    0 < dot (plane_dir tr p) (r0 axes) /\ dot (plane_dir tr (lon, lat)) (r0 axes) < 0 /\ p <> (lon, lat).
Proof.
  intros axes d0 d1 d2 h sheet l tr n m O P0 P1 H0 H1 H2 N M.
  destruct (py_coords axes d0 d1 d2 sheet l tr n 0 O P0 P1 N) as (p & k & E & K & _ & C & _).
  set (o := mkOpts m false tr true).
  destruct (js_coords h axes sheet o 0 0 (-1) H0 H1 H2 O ltac:(ring)) as (lon & lat & k' & E' & K' & _ & C' & _).
  { apply js_first. exact M. }
  exists p, lon, lat. split; auto. split; auto. cbv zeta in C'.
  assert (D : drawn (o_degrees o) (o_traditional o) (o_upper o) (lon, lat) = plane_dir tr (lon, lat)) by reflexivity.
  rewrite D in C'. unfold c0 in *.
  assert (A0 : angle_at n 0 = 0) by (unfold angle_at; simpl INR; unfold Rdiv; ring).
  rewrite A0, cos_0 in C.
  assert (0 < k * (d0 * 1)) by (apply Rmult_lt_0_compat; lra).
  assert (0 < k' * sqrt (vx h)) by (apply Rmult_lt_0_compat; auto; now apply sqrt_lt_R0).
  assert (G : 0 < dot (plane_dir tr p) (r0 axes)) by (rewrite C; lra).
  assert (L : dot (plane_dir tr (lon, lat)) (r0 axes) < 0) by (rewrite C'; lra).
  split; auto. split; auto. intros ->. lra.
Qed.
Example C177_ex : exists p lon lat,
  nth_error (py_plane ax45 (mdiag (V3 3 2 1)) "upper" 1 true 100) 0 = Some (Some p) /\
  nth_error (js_plane (test_lengths (mdiag (V3 3 2 1))) ax45 "upper" (mkOpts 100 false true true)) 0 = Some (lon, Some lat) /\
  p <> (lon, lat).
Proof.
  destruct ax45_ok as (O & _).
  destruct (C177_never_equal ax45 3 2 1 (V3 3 2 1) "upper" 1 true 100 100 O) as (p & lon & lat & A & B & _ & _ & C);
    try (cbn; lra); try lia.
  exists p, lon, lat. auto.
Qed.
Example C176_ex : exists p, In (Some p) (py_plane ax45 (mdiag (V3 3 2 1)) "upper" 1 true 100) /\
  on_cone ax45 (squared 3 2 1 1) (plane_dir true p).
Proof.
  destruct ax45_ok as (O & Z & _).
  destruct (py_coords ax45 3 2 1 "upper" 1 true 100 0 O ltac:(lra) ltac:(lra) ltac:(lia)) as (p & _ & E & _).
  exists p. apply nth_error_In in E. split; auto.
  destruct (C176_same_cone ax45 3 2 1 1 true 100 false 4 "upper" O Z ltac:(lra) ltac:(lra) ltac:(lra) ltac:(lra) ltac:(auto))
    as [A _]. destruct (A _ E) as (p' & E' & _ & B & _). injection E' as <-. exact B.
Qed.

Print Assumptions C176_same_cone.
Print Assumptions C176_nominal.
Print Assumptions C176_vertical_refuted.
Print Assumptions C177_cones.
Print Assumptions C177_never_equal.
