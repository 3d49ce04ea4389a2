(** The stereonet read backwards: from the screen to directions (C181). *)
From Coq Require Import Reals Lra Lia Psatz List Arith String Bool.
From Verif Require Import RVec Trig SpecPlane LSvd LFit LAngles MPca MAxes MSphere LRecon MFront SpecStereo SpecFront PFront MUi MNet SpecNet PNet.
Import ListNotations.
Open Scope R_scope.

Definition frame (w : view) : mat3 := M3 (v_centre w) (v_right w) (v_up w).
Lemma frame_orthonormal : forall w, proper w -> orthonormal (frame w).
Proof.
  intros [c e n] (C & E & N & EN & X). cbn [v_centre v_right v_up] in *. unfold orthonormal, frame. cbn [r0 r1 r2 v_centre v_right v_up].
  unfold nrm2. repeat split; auto.
  - rewrite <- X. unfold dot, cross. cbn [vx vy vz]. ring.
  - rewrite <- X. unfold dot, cross. cbn [vx vy vz]. ring.
Qed.
(** The direction with the given components in the view *)
Definition compose_dir (w : view) (x y z : R) : vec3 := vm (V3 x y z) (frame w).
Lemma compose_dots : forall w x y z, proper w ->
  dot (compose_dir w x y z) (v_centre w) = x /\ dot (compose_dir w x y z) (v_right w) = y /\ dot (compose_dir w x y z) (v_up w) = z.
Proof. intros w x y z W. exact (coords_vm (V3 x y z) (frame w) (frame_orthonormal w W)). Qed.
Lemma compose_expand : forall w u, proper w -> compose_dir w (dot u (v_centre w)) (dot u (v_right w)) (dot u (v_up w)) = u.
Proof.
  intros w u W. rewrite <- (orthonormal_expand (frame w) u (frame_orthonormal w W)) at 4. unfold compose_dir. f_equal.
  unfold mv, frame. cbn [r0 r1 r2]. f_equal; apply dot_comm.
Qed.
Lemma compose_centre : forall w, compose_dir w 1 0 0 = v_centre w.
Proof. intros [c e n]. unfold compose_dir, frame. apply vec3_eq; unfold vm, vadd, vscale; simpl; ring. Qed.
Lemma compose_antipode : forall w, compose_dir w (-1) 0 0 = vneg (v_centre w).
Proof. intros [c e n]. unfold compose_dir, frame. apply vec3_eq; unfold vm, vadd, vscale, vneg; simpl; ring. Qed.

(** Components of the spherical coordinates given by atan2 and asin *)
Lemma spherical : forall x y z, x * x + y * y + z * z = 1 ->
  cos (asin z) * cos (atan2 y x) = x /\ cos (asin z) * sin (atan2 y x) = y /\ sin (asin z) = z.
Proof.
  intros x y z H. assert (ZB : -1 <= z <= 1) by nra. rewrite sin_asin, cos_asin by auto.
  replace (1 - z²) with (x * x + y * y) by (unfold Rsqr; lra).
  destruct (Req_EM_T (x * x + y * y) 0) as [h|h].
  - assert (x = 0) by nra. assert (y = 0) by nra. rewrite h, sqrt_0. repeat split; lra.
  - assert (0 < sqrt (x * x + y * y)) by (apply sqrt_lt_R0; nra).
    rewrite cos_atan2, sin_atan2 by (destruct (Req_EM_T x 0); [right; nra | auto]). repeat split; field; lra.
Qed.
Lemma unrotate_components : forall r lam phi,
  let q := d3_unrotate (rad3 r) (lam, phi) in
  enu (degrees (fst q), degrees (snd q)) = compose_dir (turned r) (cos lam * cos phi) (sin lam * cos phi) (sin phi) /\
  -90 <= degrees (snd q) <= 90.
Proof.
  intros [[l p] g] lam phi q. unfold q, d3_unrotate, rad3.
  set (x := cos lam * cos phi). set (y := sin lam * cos phi). set (z := sin phi).
  assert (N : x * x + y * y + z * z = 1).
  { unfold x, y, z. pose proof (sc1 lam) as A. pose proof (sc1 phi) as B.
    transitivity (cos phi * cos phi * (sin lam * sin lam + cos lam * cos lam) + sin phi * sin phi); [ring|]. rewrite A. lra. }
  clearbody x y z.
  pose proof (sc1 (radians l)) as SL. pose proof (sc1 (radians p)) as SP. pose proof (sc1 (radians g)) as SG.
  set (sl := sin (radians l)) in *. set (cl := cos (radians l)) in *.
  set (sp := sin (radians p)) in *. set (cp := cos (radians p)) in *.
  set (sg := sin (radians g)) in *. set (cg := cos (radians g)) in *.
  set (k := z * cg - y * sg). set (A := x * cp + k * sp). set (B := y * cg + z * sg). set (C := k * cp - x * sp).
  assert (U : A * A + B * B + C * C = 1).
  { unfold A, B, C. transitivity (x * x * (sp * sp + cp * cp) + k * k * (sp * sp + cp * cp) + (y * cg + z * sg) * (y * cg + z * sg)); [ring|].
    rewrite SP. unfold k. transitivity (x * x + z * z * (sg * sg + cg * cg) + y * y * (sg * sg + cg * cg)); [ring|]. rewrite SG. lra. }
  destruct (spherical A B C U) as (E1 & E2 & E3). cbn [fst snd]. split.
  - unfold enu. cbn [fst snd]. rewrite !radians_degrees, E3, sin_minus, cos_minus. fold sl cl.
    replace (cos (asin C) * (sin (atan2 B A) * cl - cos (atan2 B A) * sl)) with
      (cos (asin C) * sin (atan2 B A) * cl - cos (asin C) * cos (atan2 B A) * sl) by ring.
    replace (cos (asin C) * (cos (atan2 B A) * cl + sin (atan2 B A) * sl)) with
      (cos (asin C) * cos (atan2 B A) * cl + cos (asin C) * sin (atan2 B A) * sl) by ring.
    rewrite E1, E2. unfold compose_dir, frame, turned. destruct (turned_base l p) as (T1 & T2 & T3). rewrite T1, T2, T3.
    fold sl cl sp cp sg cg. unfold A, B, C, k.
    apply vec3_eq; unfold vm, vadd, vsub, vscale; cbn [v_centre v_right v_up r0 r1 r2 vx vy vz]; ring.
  - pose proof (asin_bound C) as AB. destruct AB as [A1 A2]. apply degrees_le in A1. apply degrees_le in A2.
    rewrite degrees_PI2 in A2. replace (degrees (- (PI / 2))) with (-90) in A1; [lra|]. unfold degrees. pose proof PI_RGT_0. field. lra.
Qed.
(** Components of the point at (x, y) of the unscaled net *)
Lemma invert_components : forall x y, x * x + y * y <= 4 ->
  let q := equal_area_invert (x, y) in let r := sqrt (1 - (x * x + y * y) / 4) in
  cos (fst q) * cos (snd q) = 1 - (x * x + y * y) / 2 /\ sin (fst q) * cos (snd q) = x * r /\ sin (snd q) = y * r.
Proof.
  intros x y D q r. unfold q, equal_area_invert. set (z := sqrt (x * x + y * y)).
  assert (ZZ : z * z = x * x + y * y) by (unfold z; rewrite sqrt_sqrt; nra).
  assert (ZP : 0 <= z) by apply sqrt_pos. assert (Z2 : z <= 2) by nra.
  assert (RR : r * r = 1 - z * z / 4) by (unfold r; rewrite sqrt_sqrt; nra).
  assert (RP : 0 <= r) by apply sqrt_pos. rewrite <- ZZ.
  assert (S : sin (asin (z / 2)) = z / 2) by (apply sin_asin; lra).
  assert (Cc : cos (asin (z / 2)) = r).
  { rewrite cos_asin by lra. unfold r. f_equal. unfold Rsqr. lra. }
  rewrite sin_2a, cos_2a, S, Cc.
  destruct (Req_EM_T z 0) as [E|E].
  - assert (x = 0) by nra. assert (y = 0) by nra. subst x y. rewrite E. cbn [fst snd].
    replace (0 * (2 * (0 / 2) * r)) with 0 by ring. replace (0 * (r * r - 0 / 2 * (0 / 2))) with 0 by ring.
    rewrite atan2_00, asin_0, cos_0, sin_0. repeat split; lra.
  - cbn [fst snd]. assert (ZP' : 0 < z) by lra.
    replace (x * (2 * (z / 2) * r)) with (z * (x * r)) by field. replace (y * (2 * (z / 2) * r) / z) with (y * r) by (field; lra).
    rewrite atan2_scale by auto.
    destruct (spherical (r * r - z / 2 * (z / 2)) (x * r) (y * r)) as (E1 & E2 & E3).
    { transitivity ((r * r - z * z / 4) * (r * r - z * z / 4) + (x * x + y * y) * (r * r)); [field|]. rewrite <- ZZ, RR. field. }
    split; [|split].
    + rewrite Rmult_comm, E1, RR. lra.
    + rewrite Rmult_comm. exact E2.
    + exact E3.
Qed.
Lemma invert_outside : forall x y, 4 <= x * x + y * y -> equal_area_invert (x, y) = (PI, 0).
Proof.
  intros x y D. unfold equal_area_invert. set (z := sqrt (x * x + y * y)).
  assert (Z2 : 2 <= z) by (unfold z; rewrite <- (sqrt_square 2) by lra; apply sqrt_le_1; lra).
  assert (A : asin (z / 2) = PI / 2).
  { unfold asin. destruct (Rle_dec (z / 2) (-1)); [lra|]. destruct (Rle_dec 1 (z / 2)); lra. }
  rewrite A. replace (2 * (PI / 2)) with PI by field. rewrite sin_PI, cos_PI, !Rmult_0_r.
  destruct (Req_EM_T z 0); [lra|]. unfold Rdiv. rewrite Rmult_0_l, asin_0. f_equal.
  unfold atan2. destruct (Rlt_dec 0 (z * -1)); [lra|]. destruct (Rlt_dec (z * -1) 0); [|lra].
  destruct (Rle_dec 0 0); [|lra]. unfold Rdiv. rewrite Rmult_0_l, atan_0. ring.
Qed.
Lemma unproject_value : forall p k s, pr_scale p = Some k -> 0 < k ->
  let x := (fst s - fst (pr_translate p)) / k in let y := (snd (pr_translate p) - snd s) / k in
  exists q, unproject p s = Some q /\ -90 <= snd q <= 90 /\
    (x * x + y * y <= 4 -> enu q = compose_dir (turned (pr_rotate p)) (1 - (x * x + y * y) / 2)
       (x * sqrt (1 - (x * x + y * y) / 4)) (y * sqrt (1 - (x * x + y * y) / 4))) /\
    (4 <= x * x + y * y -> enu q = vneg (v_centre (turned (pr_rotate p)))).
Proof.
  intros p k s HK K x y. unfold unproject, fdiv. rewrite HK. cbn [obind].
  destruct (Req_EM_T k 0); [lra|]. cbn [obind]. fold x y.
  destruct (unrotate_components (pr_rotate p) (fst (equal_area_invert (x, y))) (snd (equal_area_invert (x, y)))) as [E B].
  rewrite <- surjective_pairing in E, B.
  destruct (d3_unrotate (rad3 (pr_rotate p)) (equal_area_invert (x, y))) as [lam phi] eqn:D. cbn [fst snd] in E, B.
  exists (degrees lam, degrees phi). split; [reflexivity|]. split; [exact B|]. rewrite E. split; intros H.
  - destruct (invert_components x y H) as (C1 & C2 & C3). cbv zeta in *. now rewrite C1, C2, C3.
  - rewrite (invert_outside x y H). cbn [fst snd]. rewrite cos_PI, cos_0, sin_PI, sin_0. rewrite <- compose_antipode. f_equal; ring.
Qed.
Lemma dist_scaled : forall p k s, 0 < k ->
  let x := (fst s - fst (pr_translate p)) / k in let y := (snd (pr_translate p) - snd s) / k in
  dist2 s (pr_translate p) = k * k * (x * x + y * y).
Proof. intros p k [a b] K x y. unfold x, y, dist2. destruct (pr_translate p). cbn [fst snd]. field. lra. Qed.

(** Reading a place back gives the direction drawn there, with a latitude in range. *)
Theorem C181_read_back : forall p k q s, pr_scale p = Some k -> 0 < k ->
  project p q = Some s -> exists q', unproject p s = Some q' /\ enu q' = enu q /\ -90 <= snd q' <= 90.
Proof.
  intros p k q s HK K P. set (w := turned (pr_rotate p)). assert (W : proper w) by apply turned_proper.
  assert (NA : dot (enu q) (v_centre w) <> -1).
  { intros E. apply dot_m1 in E; [|apply enu_unit | unfold unit3, nrm2; apply W].
    rewrite (C167_antipode p k q HK E) in P. discriminate. }
  pose proof (project_value p k q HK NA) as V. cbv zeta in V. rewrite P in V. injection V as V. fold w in V.
  pose proof (dot_bound _ _ (enu_unit q) (proj1 W)) as B. pose proof (proper_parseval w (enu q) W (enu_unit q)) as PV.
  destruct (unproject_value p k s HK K) as (q' & E & B' & I & _). exists q'. split; [exact E|]. split; [|exact B'].
  set (c := dot (enu q) (v_centre w)) in *. set (a := dot (enu q) (v_right w)) in *. set (b := dot (enu q) (v_up w)) in *.
  set (m := sqrt (2 / (1 + c))) in *.
  assert (X : (fst s - fst (pr_translate p)) / k = m * a) by (rewrite V; cbn [fst]; field; lra).
  assert (Y : (snd (pr_translate p) - snd s) / k = m * b) by (rewrite V; cbn [snd]; field; lra).
  rewrite X, Y in I.
  assert (MM : m * m = 2 / (1 + c)) by (unfold m; apply sqrt_sqrt, Rlt_le, Rdiv_lt_0_compat; lra).
  assert (MP : 0 < m) by (unfold m; apply sqrt_lt_R0, Rdiv_lt_0_compat; lra).
  assert (D : m * a * (m * a) + m * b * (m * b) = 2 * (1 - c)).
  { transitivity (m * m * (a * a + b * b)); [ring|]. rewrite MM. replace (a * a + b * b) with ((1 - c) * (1 + c)) by lra. field. lra. }
  rewrite D in I. rewrite (I ltac:(lra)). fold w.
  assert (S : m * sqrt (1 - 2 * (1 - c) / 4) = 1).
  { unfold m. rewrite <- sqrt_mult_alt by (apply Rlt_le, Rdiv_lt_0_compat; lra).
    replace (2 / (1 + c) * (1 - 2 * (1 - c) / 4)) with 1 by (field; lra). apply sqrt_1. }
  replace (m * a * sqrt (1 - 2 * (1 - c) / 4)) with (a * (m * sqrt (1 - 2 * (1 - c) / 4))) by ring.
  replace (m * b * sqrt (1 - 2 * (1 - c) / 4)) with (b * (m * sqrt (1 - 2 * (1 - c) / 4))) by ring.
  rewrite S. replace (1 - 2 * (1 - c) / 2) with c by field. rewrite !Rmult_1_r.
  apply compose_expand. exact W.
Qed.
(** Every place inside the circle of twice the scale is read as a direction that is drawn
    there; every other place is read as the antipode, which is drawn nowhere. *)
Theorem C181_disc : forall p k s, pr_scale p = Some k -> 0 < k -> exists q, unproject p s = Some q /\
  (dist2 s (pr_translate p) < 4 * (k * k) -> project p q = Some s) /\
  (4 * (k * k) <= dist2 s (pr_translate p) -> enu q = vneg (v_centre (turned (pr_rotate p))) /\ project p q = None).
Proof.
  intros p k s HK K. set (w := turned (pr_rotate p)). assert (W : proper w) by apply turned_proper.
  destruct (unproject_value p k s HK K) as (q & E & _ & I & O). exists q. split; [exact E|].
  rewrite (dist_scaled p k s K). set (x := (fst s - fst (pr_translate p)) / k) in *. set (y := (snd (pr_translate p) - snd s) / k) in *.
  set (d := x * x + y * y) in *. assert (KK : 0 < k * k) by nra. fold w in I, O. split; intros H.
  - assert (D4 : d < 4) by (apply Rmult_lt_reg_l with (k * k); lra). specialize (I ltac:(lra)).
    assert (D0 : 0 <= d) by (unfold d; nra).
    destruct (compose_dots w (1 - d / 2) (x * sqrt (1 - d / 4)) (y * sqrt (1 - d / 4)) W) as (A & B & C). rewrite <- I in A, B, C.
    rewrite (project_value p k q HK) by (fold w; rewrite A; lra). fold w. rewrite A, B, C.
    assert (S : sqrt (2 / (1 + (1 - d / 2))) * sqrt (1 - d / 4) = 1).
    { rewrite <- sqrt_mult_alt by (apply Rlt_le, Rdiv_lt_0_compat; lra).
      replace (2 / (1 + (1 - d / 2)) * (1 - d / 4)) with 1 by (field; lra). apply sqrt_1. }
    replace (k * (sqrt (2 / (1 + (1 - d / 2))) * (x * sqrt (1 - d / 4)))) with (k * x * (sqrt (2 / (1 + (1 - d / 2))) * sqrt (1 - d / 4))) by ring.
    replace (k * (sqrt (2 / (1 + (1 - d / 2))) * (y * sqrt (1 - d / 4)))) with (k * y * (sqrt (2 / (1 + (1 - d / 2))) * sqrt (1 - d / 4))) by ring.
    rewrite S. unfold x, y. destruct s as [s1 s2], (pr_translate p) as [t1 t2]. cbn [fst snd]. do 2 f_equal; field; lra.
  - assert (D4 : 4 <= d) by (apply Rmult_le_reg_l with (k * k); lra). specialize (O D4). split; [exact O|].
    apply (C167_antipode p k q HK). exact O.
Qed.

(** The net tells where it is centred, whatever was asked of it, if it was mounted and is not
    in a rectangular frame. *)
Definition centred (s : net) : Prop := n_rect s = None /\ pr_translate (n_proj s) = (n_size s / 2, n_size s / 2).
Lemma centred_set_scale : forall n s, n_rect s = None -> centred (setScale n s).
Proof.
  intros n s H. split; [exact H|]. unfold setScale. cbn [n_proj n_size].
  destruct (Rlt_dec (n_clipAngle s) 89); [destruct (n_shouldClip s)|]; reflexivity.
Qed.
Lemma centred_step : forall c s, rectangular c = false -> centred s -> centred (net_step s c).
Proof.
  intros c s H [A B]. destruct c; cbn [net_step rectangular] in *; try discriminate; try (split; assumption).
  - now apply centred_set_scale.
  - apply centred_set_scale. exact A.
  - destruct (centred_set_scale None s A) as [A' B']. set (s1 := setScale None s) in *.
    split; [exact A'|]. cbn [n_proj n_size]. rewrite A'. exact B'.
  - destruct (n_mounted s); split; assumption.
Qed.
Theorem C181_centre : forall cs cs', forallb (fun c => negb (rectangular c)) (cs ++ cs') = true ->
  let s := net_run net0 (cs ++ Mount :: cs') in
  forall k, pr_scale (n_proj s) = Some k -> 0 < k ->
  exists q, centre_position s = Some q /\ enu q = v_centre (turned (pr_rotate (n_proj s))).
Proof.
  intros cs cs' H s k HK K. rewrite forallb_app in H. apply andb_true_iff in H. destruct H as [H H'].
  assert (C : centred s).
  { unfold s, net_run. rewrite fold_left_app. cbn [fold_left]. fold (net_run net0 cs).
    destruct (run_fields cs net0) as (_ & _ & _ & _ & _ & F). specialize (F H).
    set (s0 := net_run net0 cs) in *. clearbody s0. change (n_rect net0) with (@None (R * R)) in F.
    assert (C0 : centred (net_step s0 Mount)).
    { destruct (centred_set_scale None s0 F) as [A' B']. cbn [net_step]. set (s1 := setScale None s0) in *.
      split; [exact A'|]. cbn [n_proj n_size]. rewrite A'. exact B'. }
    clear F H. set (s1 := net_step s0 Mount) in *. clearbody s1. clear s0 s HK. revert s1 C0.
    induction cs' as [|c cs' IH]; intros s1 C0; cbn [fold_left]; auto.
    cbn [forallb] in H'. apply andb_true_iff in H'. destruct H' as [H1 H2]. apply IH; auto.
    apply centred_step; auto. now apply negb_true_iff. }
  destruct C as [_ C]. unfold centre_position.
  destruct (unproject_value (n_proj s) k (n_size s / 2, n_size s / 2) HK K) as (q & E & _ & I & _). exists q. split; [exact E|].
  rewrite C in I. cbn [fst snd] in I.
  replace ((n_size s / 2 - n_size s / 2) / k) with 0 in I by (field; lra).
  rewrite (I ltac:(lra)), <- compose_centre. f_equal; lra.
Qed.
(** In a frame whose middle is not that of the square, it tells another direction. *)
Theorem C181_frame : forall s w h k, n_rect s = Some (w, h) -> pr_scale (n_proj (net_step s Mount)) = Some k -> 0 < k ->
  let s' := net_step s Mount in
  exists q, centre_position s' = Some q /\
  (enu q = v_centre (turned (pr_rotate (n_proj s'))) <-> w = n_size s - 2 * n_margin s /\ h = n_size s - 2 * n_margin s).
Proof.
  intros s w h k HR HK K s'.
  assert (T : pr_translate (n_proj s') = (w / 2 + n_margin s, h / 2 + n_margin s) /\ n_size s' = n_size s).
  { unfold s'. cbn [net_step]. destruct (set_scale_fields None s) as (A & B & _ & _ & E & _). set (s1 := setScale None s) in *.
    cbn [n_proj n_size]. rewrite E, HR. cbn [set_translate pr_translate]. rewrite A. auto. }
  destruct T as [T TS]. unfold centre_position. rewrite TS.
  destruct (unproject_value (n_proj s') k (n_size s / 2, n_size s / 2) HK K) as (q & E & _ & I & O). exists q. split; [exact E|].
  set (vw := turned (pr_rotate (n_proj s'))) in *. assert (W : proper vw) by apply turned_proper.
  rewrite T in I, O. cbn [fst snd] in I, O. set (x := (n_size s / 2 - (w / 2 + n_margin s)) / k) in *. set (y := (h / 2 + n_margin s - n_size s / 2) / k) in *.
  assert (CC : dot (v_centre vw) (v_centre vw) = 1) by apply W.
  split.
  - intros Q. assert (D : x * x + y * y = 0).
    { destruct (Rle_dec 4 (x * x + y * y)) as [l|l].
      - rewrite (O l) in Q. assert (X : dot (vneg (v_centre vw)) (v_centre vw) = dot (v_centre vw) (v_centre vw)) by now rewrite Q.
        rewrite dot_comm, dot_neg_r, CC in X. lra.
      - assert (l' : x * x + y * y <= 4) by lra. specialize (I l').
        destruct (compose_dots vw (1 - (x * x + y * y) / 2) (x * sqrt (1 - (x * x + y * y) / 4)) (y * sqrt (1 - (x * x + y * y) / 4)) W) as (A & _ & _).
        rewrite <- I, Q, CC in A. lra. }
    assert (X0 : x = 0) by nra. assert (Y0 : y = 0) by nra.
    assert (X1 : x * k = n_size s / 2 - (w / 2 + n_margin s)) by (unfold x; field; lra).
    assert (Y1 : y * k = h / 2 + n_margin s - n_size s / 2) by (unfold y; field; lra).
    rewrite X0 in X1. rewrite Y0 in Y1. lra.
  - intros [-> ->]. assert (X0 : x = 0) by (unfold x; field; lra). assert (Y0 : y = 0) by (unfold y; field; lra).
    rewrite (I ltac:(rewrite X0, Y0; lra)), X0, Y0, <- compose_centre. f_equal; lra.
Qed.
(** A net 300 wide in a frame 400 wide *)
Example C181_ex : exists k, pr_scale (n_proj (net_run net0 [Rectangular (Some 400) None; Mount])) = Some k /\ 0 < k /\
  n_rect (net_run net0 [Rectangular (Some 400) None]) = Some (400, 300 - 2 * 20) /\
  exists p q s, pr_scale p = Some 100 /\ project p q = Some s.
Proof.
  exists (300 / (25 / 10) - 20). split.
  - unfold net_run. cbn [fold_left net_step]. unfold setScale. cbn [n_clipAngle net0 n_size n_margin n_proj n_shouldClip n_rect].
    destruct (Req_EM_T 90 90); [|lra]. destruct (Rlt_dec 90 89); [lra|]. reflexivity.
  - split; [lra|]. split; [reflexivity|]. destruct C167_ex as (A & _ & _).
    eexists (mkProj (Some 90) (Some 100) (150, 150) (0, 0, 0)), (0, 0), _. split; [reflexivity | exact A].
Qed.

(** Read back, size and scale are both the last size given, with any other calls in between,
    also of [scale] and [rectangular]. *)
Theorem C168_getters : forall cs, let s := net_run net0 cs in
  get_size s = last_of size_of cs 300 /\ get_scale s = last_of size_of cs 300 /\ n_margin s = last_of margin_of cs 20.
Proof.
  intros cs s. unfold get_size, get_scale.
  assert (G : forall l a, n_size (net_run a l) = last_of size_of l (n_size a) /\ n_margin (net_run a l) = last_of margin_of l (n_margin a)).
  { unfold net_run. induction l as [|c l IH]; intros a; cbn [fold_left last_of]; [auto|].
    destruct (IH (net_step a c)) as (-> & ->).
    destruct c; cbn [net_step size_of margin_of]; try (split; reflexivity). destruct (n_mounted a); split; reflexivity. }
  destruct (G cs net0) as (A & B). unfold s. rewrite A, B. auto.
Qed.
Example C168_getters_ex : get_size (net_run net0 [Size 400; Scale 7; Rectangular None (Some 50); Mount]) = 400 /\
  get_scale (net_run net0 [Size 400; Scale 7; Mount]) = 400.
Proof. split; apply C168_getters. Qed.

Print Assumptions C181_read_back.
Print Assumptions C181_disc.
Print Assumptions C181_centre.
Print Assumptions C181_frame.
Print Assumptions C168_getters.
