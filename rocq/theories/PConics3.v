(** Property C102: the angle subtended by a sphere. *)
From Coq Require Import Reals Lra Lia List Arith Bool Psatz.
From Verif Require Import RVec Trig LNum SpecConics MConics LConics LSlice LDet LPlane PConics PConics2.
Import ListNotations.
Open Scope R_scope.

Section Sphere.
  Variables (r : R) (c : vec3) (S0 : matn).
  Hypothesis HR : 0 < r.
  Hypothesis HD : r < norm c.
  Hypothesis HS : from_semiaxes 3 (fun _ => r) = Some S0.
  Let C := translate 3 S0 (vec_of3 c).
  Let D := norm c.
  Let DD : D * D = vx c * vx c + vy c * vy c + vz c * vz c.
  Proof. unfold D. rewrite norm_sqr. vunf. ring. Qed.
  Let D0 : 0 < D. Proof. unfold D. lra. Qed.
  Definition dot3 (x y : vecn) := x 0%nat * y 0%nat + x 1%nat * y 1%nat + x 2%nat * y 2%nat.
  Lemma sphere_entries : meq 4 4 C (mat_of [[/ (r*r); 0; 0; - vx c / (r*r)]; [0; / (r*r); 0; - vy c / (r*r)];
     [0; 0; / (r*r); - vz c / (r*r)]; [- vx c / (r*r); - vy c / (r*r); - vz c / (r*r); (vx c * vx c + vy c * vy c + vz c * vz c) / (r*r) - 1]]).
  Proof.
    unfold C. rewrite (from_semiaxes_ok 3 (fun _ => r)) in HS by auto. injection HS as <-.
    intros i j I J. unfold translate, transform, solve_mat, mulm, trn, idn, mat_of, vec_of3.
    destruct i as [|[|[|[|i]]]]; try lia; destruct j as [|[|[|[|j]]]]; try lia; simpl; field; lra.
  Qed.
  Lemma sphere_bil : forall x y, bil 4 C x y =
    (dot3 x y - x 3%nat * dot3 (vec_of3 c) y - y 3%nat * dot3 x (vec_of3 c) + x 3%nat * y 3%nat * (D * D - r * r)) / (r * r).
  Proof.
    intros x y. rewrite (bil_ext 4 C _ x x y y sphere_entries) by (intros i I; reflexivity).
    unfold bil, mat_of, dot3. rewrite DD. simpl. field. lra.
  Qed.
  Lemma sphere_value : forall p, value 3 C p = (dot3 p p - 2 * dot3 (vec_of3 c) p + D * D) / (r * r) - 1.
  Proof.
    intros p. rewrite <- bil_value. rewrite sphere_bil. unfold dot3, augment; simpl. field. lra.
  Qed.
  Let plane := polar_plane 3 C (fun _ => 0).
  Lemma sphere_plane : plane 0%nat = - vx c / (r*r) /\ plane 1%nat = - vy c / (r*r) /\ plane 2%nat = - vz c / (r*r) /\
    plane 3%nat = (D * D - r * r) / (r*r).
  Proof.
    assert (E : forall i, (i < 4)%nat -> plane i = C i 3%nat).
    { intros i I. unfold plane, polar_plane, mulv, augment. simpl. ring. }
    rewrite !E by lia. rewrite !sphere_entries by lia. rewrite DD. unfold mat_of; simpl. repeat split; try reflexivity. field. lra.
  Qed.
  Lemma sphere_norm : normn 3 plane = D / (r * r).
  Proof.
    destruct sphere_plane as (P0 & P1 & P2 & _). unfold normn. rewrite sumn3, P0, P1, P2.
    replace (- vx c / (r * r) * (- vx c / (r * r)) + - vy c / (r * r) * (- vy c / (r * r)) + - vz c / (r * r) * (- vz c / (r * r)))
      with (Rsqr (D / (r * r))).
    - apply sqrt_Rsqr. apply Rlt_le, Rdiv_lt_0_compat; nra.
    - unfold Rsqr. replace (D / (r * r) * (D / (r * r))) with ((D * D) / (r * r * (r * r))) by (field; lra).
      rewrite DD. field. lra.
  Qed.
  Definition nhat := vscale (- / norm c) c.
  Lemma nhat_unit : dot nhat nhat = 1.
  Proof.
    unfold nhat. fold D. replace (dot (vscale (- / D) c) (vscale (- / D) c)) with ((vx c * vx c + vy c * vy c + vz c * vz c) / (D * D)).
    - rewrite <- DD. field. lra. - destruct c. vunf. field. lra.
  Qed.
  Let h : vecn := fun i => plane i / (D / (r * r)).
  Let o : vecn := fun i => - (h i * h 3%nat).
  Lemma h_ok : hessian_normal 3 plane = Some h.
  Proof.
    unfold hessian_normal. rewrite sphere_norm. assert (0 < D / (r * r)) by (apply Rdiv_lt_0_compat; nra).
    destruct (Req_EM_T (D / (r * r)) 0); [lra|reflexivity].
  Qed.
  Lemma h_nhat : to_vec3 h = nhat.
  Proof.
    destruct sphere_plane as (P0 & P1 & P2 & _). unfold to_vec3, h, nhat. rewrite P0, P1, P2. fold D.
    apply vec3_eq; vunf; field; lra.
  Qed.
  Let B := (D * D - r * r) / D.
  Let B0 : 0 < B. Proof. unfold B. apply Rdiv_lt_0_compat; auto. unfold D. nra. Qed.
  Lemma o_vec : to_vec3 o = vscale (B / D) c.
  Proof.
    destruct sphere_plane as (P0 & P1 & P2 & P3). unfold to_vec3, o, h. rewrite P0, P1, P2, P3. unfold B.
    apply vec3_eq; vunf; field; lra.
  Qed.
  Lemma o_norm : normn 3 o = B.
  Proof.
    assert (E : normn 3 o = norm (to_vec3 o)) by (unfold normn, norm; f_equal; rewrite sumn3; unfold to_vec3; vunf; ring).
    rewrite E, o_vec, norm_scale. fold D. rewrite Rabs_pos_eq; [field; lra|]. apply Rlt_le, Rdiv_lt_0_compat; auto.
  Qed.
  Variable v : vec3.
  Hypothesis HV : perpendicular3 nhat = Ok v.
  Hypothesis V0 : v <> vzero.
  Hypothesis VN : dot v nhat = 0.
  Let con := transform 3 C (slice_matrix 3 [vec_of3 v; vec_of3 (cross v nhat)] o).
  Lemma sphere_projection : exists tr, projection 3 C None None = Ok (con, tr, o).
  Proof.
    unfold projection, slice, plane_normal_of, plane_offset. fold plane. rewrite h_ok. cbn [option_map].
    unfold default_axes, perpendicular_vector. rewrite h_nhat, HV. cbn [rbind].
    replace (to_vec3 (vec_of3 v)) with v by (destruct v; reflexivity). eexists. reflexivity.
  Qed.
  Let NU := norm v.
  Let NN : dot v v = NU * NU. Proof. unfold NU. rewrite norm_sqr. reflexivity. Qed.
  Lemma vc0 : dot v c = 0.
  Proof.
    assert (X : dot v nhat = - / D * dot v c) by (unfold nhat; fold D; destruct v, c; vunf; ring).
    rewrite X in VN. apply Rmult_integral in VN. destruct VN as [Z|Z]; auto.
    exfalso. assert (0 < / D) by now apply Rinv_0_lt_compat. lra.
  Qed.
  Lemma wc0 : dot (cross v nhat) c = 0.
  Proof. unfold nhat. destruct v, c. vunf. ring. Qed.
  Lemma con_entries : con 0%nat 0%nat = NU * NU / (r * r) /\ con 1%nat 1%nat = NU * NU / (r * r) /\
    con 0%nat 1%nat = 0 /\ con 1%nat 0%nat = 0 /\ con 0%nat 2%nat = 0 /\ con 2%nat 0%nat = 0 /\ con 1%nat 2%nat = 0 /\ con 2%nat 1%nat = 0 /\
    con 2%nat 2%nat = - (D * D - r * r) / (D * D).
  Proof.
    unfold con. rewrite !transform_entries, !sphere_bil.
    pose proof vc0 as VC. pose proof wc0 as WC.
    pose proof (cross_unit_len nhat v nhat_unit VN) as WW. rewrite NN in WW.
    assert (VW : dot v (cross v nhat) = 0) by (destruct v, nhat; vunf; ring).
    set (w := cross v nhat) in *. clearbody w. pose proof NN as VV.
    unfold slice_matrix, dot3. simpl.
    pose proof (f_equal vx o_vec) as O0. pose proof (f_equal vy o_vec) as O1. pose proof (f_equal vz o_vec) as O2.
    unfold to_vec3 in O0, O1, O2. cbn [vx vy vz vscale] in O0, O1, O2. rewrite O0, O1, O2.
    assert (U : dot v v = vx v * vx v + vy v * vy v + vz v * vz v) by (vunf; ring). rewrite U in VV.
    assert (U2 : dot w w = vx w * vx w + vy w * vy w + vz w * vz w) by (vunf; ring). rewrite U2 in WW.
    assert (U3 : dot v w = vx v * vx w + vy v * vy w + vz v * vz w) by (vunf; ring). rewrite U3 in VW.
    assert (U4 : dot v c = vx v * vx c + vy v * vy c + vz v * vz c) by (vunf; ring). rewrite U4 in VC.
    assert (U5 : dot w c = vx w * vx c + vy w * vy c + vz w * vz c) by (vunf; ring). rewrite U5 in WC.
    assert (Z : forall t, t = 0 -> t / (r * r) = 0) by (intros t ->; unfold Rdiv; ring).
    repeat split.
    - rewrite <- VV. field. lra.
    - rewrite <- WW. field. lra.
    - apply Z. lra.
    - apply Z. lra.
    - apply Z.
      replace (vx v * (B / D * vx c) + vy v * (B / D * vy c) + vz v * (B / D * vz c) - 0 * (vx c * (B / D * vx c) + vy c * (B / D * vy c) + vz c * (B / D * vz c)) - 1 * (vx v * vx c + vy v * vy c + vz v * vz c) + 0 * 1 * (D * D - r * r))
       with ((B / D - 1) * (vx v * vx c + vy v * vy c + vz v * vz c)) by ring. rewrite VC. ring.
    - apply Z.
      match goal with |- ?t = 0 => replace t with ((B / D - 1) * (vx v * vx c + vy v * vy c + vz v * vz c)) by ring end. rewrite VC. ring.
    - apply Z.
      match goal with |- ?t = 0 => replace t with ((B / D - 1) * (vx w * vx c + vy w * vy c + vz w * vz c)) by ring end. rewrite WC. ring.
    - apply Z.
      match goal with |- ?t = 0 => replace t with ((B / D - 1) * (vx w * vx c + vy w * vy c + vz w * vz c)) by ring end. rewrite WC. ring.
    - match goal with |- ?t / (r * r) = _ => replace t with ((B / D * (B / D) - 2 * (B / D)) * (vx c * vx c + vy c * vy c + vz c * vz c) + (D * D - r * r)) by ring end.
      rewrite <- DD. unfold B. field. split; lra.
  Qed.
  Let N0 : 0 < NU.
  Proof. unfold NU. pose proof (norm_nonneg v). destruct (Req_EM_T (norm v) 0) as [e|e]; [apply norm_zero_iff in e; contradiction|lra]. Qed.
  Variable svd : svdn_fn.
  Hypothesis SV : forall con tr pt, projection 3 C None None = Ok (con, tr, pt) -> let '(U, s, V) := svd 2%nat con in is_svdn 2 con U s V.
  Let q := sqrt (D * D - r * r).
  Let Q0 : 0 < q. Proof. unfold q. apply sqrt_lt_R0. unfold D. nra. Qed.
  Let QQ : q * q = D * D - r * r. Proof. unfold q. apply sqrt_sqrt. unfold D. nra. Qed.
  Lemma sphere_axes : exists M, major_axes svd 2 con = Ok M /\ forall k, (k < 2)%nat -> normn 2 (M k) = NU * q / (r * D).
  Proof.
    destruct sphere_projection as [tr E]. specialize (SV con tr o E). unfold major_axes.
    destruct (svd 2%nat con) as [[U s] V].
    destruct con_entries as (E00 & E11 & E01 & E10 & E02 & E20 & E12 & E21 & E22).
    assert (T : total 3 con - total 2 con = - (D * D - r * r) / (D * D)).
    { unfold total. rewrite sumn3, sumn2, !sumn3, !sumn2. rewrite E02, E20, E12, E21, E22. ring. }
    rewrite T. assert (P : 0 < NU * NU / (r * r)) by (apply Rdiv_lt_0_compat; nra).
    assert (SK : forall k, (k < 2)%nat -> s k = NU * NU / (r * r)).
    { intros k K. pose proof (svd_row_unit 2 con U s V k SV K) as RU. rewrite sumn2 in RU.
      assert (DG : forall j, (j < 2)%nat -> V k j = 0 \/ NU * NU / (r * r) = s k).
      { intros j J. destruct (svd_diag 2 con U s V k j SV) as [Z|Z]; auto.
        - intros i l I L N. destruct i as [|[|i]], l as [|[|l]]; try lia; auto.
        - right. rewrite <- Z. destruct j as [|[|j]]; try lia; rewrite ?E00, ?E11; now rewrite Rabs_pos_eq by lra. }
      destruct (DG 0%nat ltac:(lia)) as [Z0|Z0]; [|auto]. destruct (DG 1%nat ltac:(lia)) as [Z1|Z1]; [|auto].
      rewrite Z0, Z1 in RU. lra. }
    assert (F : NU * NU / (r * r) * - (- (D * D - r * r) / (D * D)) = Rsqr (NU * q / (r * D))).
    { unfold Rsqr. replace (NU * q / (r * D) * (NU * q / (r * D))) with (NU * NU / (r * r) * ((q * q) / (D * D))) by (field; split; lra).
      rewrite QQ. field. split; lra. }
    assert (FP : 0 < NU * q / (r * D)) by (apply Rdiv_lt_0_compat; nra).
    rewrite (proj2 (existsb_seq 2 _)).
    - eexists. split; [reflexivity|]. intros k K. unfold normn. rewrite sumn2. rewrite !SK by lia. rewrite F.
      rewrite sqrt_Rsqr by lra. pose proof (svd_row_unit 2 con U s V k SV K) as RU. rewrite sumn2 in RU.
      set (x := NU * q / (r * D)) in *.
      replace (x * V k 0%nat * (x * V k 0%nat) + x * V k 1%nat * (x * V k 1%nat)) with
        (x * x * (V k 0%nat * V k 0%nat + V k 1%nat * V k 1%nat)) by ring.
      rewrite RU, Rmult_1_r. apply sqrt_square. lra.
    - intros j J. rewrite SK by auto. rewrite F. pose proof (Rle_0_sqr (NU * q / (r * D))).
      destruct (Rlt_dec (Rsqr (NU * q / (r * D))) 0); [lra|auto].
  Qed.
  Lemma sphere_angle : angle_subtended svd C None true = Ok (NU / (r * q), NU / (r * q)) /\
     angle_subtended svd C None false = Ok (atan (NU / (r * q)), atan (NU / (r * q))).
  Proof.
    destruct sphere_projection as [tr E]. destruct sphere_axes as (M & EM & L).
    unfold angle_subtended. rewrite E. cbn [rbind]. rewrite EM. cbn [rbind]. rewrite o_norm, !L by lia.
    rewrite Rmax_left, Rmin_left by lra. cbn [fst snd].
    assert (X : NU * q / (r * D) / B = NU / (r * q)).
    { unfold B. rewrite <- QQ. field. repeat split; lra. }
    destruct (Req_EM_T B 0); [lra|]. rewrite X. split; auto. rewrite atan2_pos by auto. now rewrite X.
  Qed.
End Sphere.

(** The half angle reported for a sphere seen from the origin, against the angle
    between the centre and the tangent points *)
Theorem C102_sphere : forall svd r c S0, 0 < r -> r < norm c -> from_semiaxes 3 (fun _ => r) = Some S0 ->
  let C := translate 3 S0 (vec_of3 c) in
  (forall con tr pt, projection 3 C None None = Ok (con, tr, pt) -> let '(U, s, V) := svd 2%nat con in is_svdn 2 con U s V) ->
  exists v, perpendicular3 (vscale (- / norm c) c) = Ok v /\
  let t := norm v / (r * sqrt (norm c * norm c - r * r)) in
  angle_subtended svd C None true = Ok (t, t) /\
  angle_subtended svd C None false = Ok (atan t, atan t) /\
  (forall p, value 3 C p = 0 -> tangent_at 3 C p zero ->
     dot (to_vec3 p) c = norm (to_vec3 p) * norm c * cos (asin (r / norm c))) /\
  (atan t = asin (r / norm c) <-> norm v = r * r).
Proof.
  intros svd r c S0 HR HD HS C SV.
  assert (NC : nhat c <> vzero).
  { intros X. pose proof (nhat_unit r c S0 HR HD) as U. rewrite X in U. revert U. vunf. lra. }
  destruct (proj1 (C67_perpendicular (nhat c)) NC) as (v & EV & V0 & VN). exists v. split; [exact EV|]. cbv zeta.
  destruct (sphere_angle r c S0 HR HD HS v EV V0 VN svd SV) as [A1 A2]. split; [exact A1|]. split; [exact A2|].
  set (D := norm c) in *. assert (D0 : 0 < D) by lra.
  set (q := sqrt (D * D - r * r)). assert (Q0 : 0 < q) by (apply sqrt_lt_R0; nra).
  assert (QQ : q * q = D * D - r * r) by (apply sqrt_sqrt; nra).
  assert (RD : 0 < r / D < 1).
  { split; [apply Rdiv_lt_0_compat; auto|]. apply Rmult_lt_reg_r with D; auto. unfold Rdiv. rewrite Rmult_assoc, Rinv_l; lra. }
  assert (SQ : sqrt (1 - (r / D)²) = q / D).
  { replace (1 - (r / D)²) with (Rsqr (q / D)).
    - apply sqrt_Rsqr. apply Rlt_le, Rdiv_lt_0_compat; auto.
    - unfold Rsqr. replace (q / D * (q / D)) with (q * q / (D * D)) by (field; lra). rewrite QQ. field. lra. }
  split.
  - intros p P T. rewrite cos_asin by lra. rewrite SQ.
    pose proof (sphere_value r c S0 HR HS) as VAL. fold C in VAL. fold D in VAL.
    assert (P1 : dot3 p p - 2 * dot3 (vec_of3 c) p + D * D = r * r).
    { rewrite VAL in P. apply (f_equal (fun x => x * (r * r))) in P.
      replace (((dot3 p p - 2 * dot3 (vec_of3 c) p + D * D) / (r * r) - 1) * (r * r)) with (dot3 p p - 2 * dot3 (vec_of3 c) p + D * D - r * r) in P by (field; lra). lra. }
    destruct T as [k T]. pose proof (T 1) as T1. pose proof (T (-1)) as T2. rewrite VAL in T1, T2.
    assert (E1 : (dot3 (towards p zero 1) (towards p zero 1) - 2 * dot3 (vec_of3 c) (towards p zero 1) + D * D) = D * D).
    { unfold dot3, towards, zero. ring. }
    assert (E2 : (dot3 (towards p zero (-1)) (towards p zero (-1)) - 2 * dot3 (vec_of3 c) (towards p zero (-1)) + D * D) =
       4 * dot3 p p - 4 * dot3 (vec_of3 c) p + D * D).
    { unfold dot3, towards, zero. ring. }
    rewrite E1 in T1. rewrite E2 in T2.
    assert (EQ : dot3 p p = dot3 (vec_of3 c) p).
    { assert (F : (D * D) / (r * r) = (4 * dot3 p p - 4 * dot3 (vec_of3 c) p + D * D) / (r * r)) by lra.
      apply (f_equal (fun x => x * (r * r))) in F. unfold Rdiv in F. rewrite !Rmult_assoc, !Rinv_l, !Rmult_1_r in F by nra. lra. }
    assert (PP : norm (to_vec3 p) * norm (to_vec3 p) = q * q).
    { rewrite norm_sqr. rewrite QQ. replace (nrm2 (to_vec3 p)) with (dot3 p p) by (unfold dot3, to_vec3; vunf; ring). lra. }
    assert (PN : norm (to_vec3 p) = q) by (pose proof (norm_nonneg (to_vec3 p)); nra).
    rewrite PN. replace (dot (to_vec3 p) c) with (dot3 (vec_of3 c) p) by (unfold dot3, to_vec3, vec_of3; destruct c; vunf; ring).
    replace (q * D * (q / D)) with (q * q) by (field; lra). lra.
  - rewrite asin_atan by lra. rewrite SQ. replace (r / D / (q / D)) with (r / q) by (field; split; lra).
    split; intros H.
    + apply (f_equal tan) in H. rewrite !tan_atan in H.
      apply (f_equal (fun x => x * (r * q))) in H.
      replace (norm v / (r * q) * (r * q)) with (norm v) in H by (field; split; lra).
      replace (r / q * (r * q)) with (r * r) in H by (field; lra). exact H.
    + f_equal. rewrite H. field. split; lra.
Qed.
(** seen along x, a unit sphere is measured correctly and one of radius 2 is not *)
Definition svd_diag2 : svdn_fn := fun _ C => (idn, fun i => C i i, idn).
Lemma svd_diag2_ok : forall C d, C 0%nat 0%nat = d -> C 1%nat 1%nat = d -> 0 <= d -> C 0%nat 1%nat = 0 -> C 1%nat 0%nat = 0 ->
  is_svdn 2 C idn (fun i => C i i) idn.
Proof.
  intros C d E0 E1 Hd E01 E10. unfold is_svdn, orthogonal, is_inverse, mulm, trn, idn. repeat split.
  - intros i j I J. destruct i as [|[|i]], j as [|[|j]]; try lia; simpl; ring.
  - intros i j I J. destruct i as [|[|i]], j as [|[|j]]; try lia; simpl; ring.
  - intros i j I J. destruct i as [|[|i]], j as [|[|j]]; try lia; simpl; ring.
  - intros i j I J. destruct i as [|[|i]], j as [|[|j]]; try lia; simpl; ring.
  - intros i I. destruct i as [|[|i]]; try lia; lra.
  - intros i j [I J]. destruct i as [|[|i]], j as [|[|j]]; try lia; lra.
  - intros i j I J. destruct i as [|[|i]], j as [|[|j]]; try lia; simpl; rewrite ?E01, ?E10; ring.
Qed.
Lemma sphere_svd : forall r c S0, 0 < r -> r < norm c -> from_semiaxes 3 (fun _ => r) = Some S0 ->
  forall con tr pt, projection 3 (translate 3 S0 (vec_of3 c)) None None = Ok (con, tr, pt) ->
  let '(U, s, V) := svd_diag2 2%nat con in is_svdn 2 con U s V.
Proof.
  intros r c S0 HR HD HS con tr pt E.
  assert (NC : nhat c <> vzero).
  { intros X. pose proof (nhat_unit r c S0 HR HD) as U. rewrite X in U. revert U. vunf. lra. }
  destruct (proj1 (C67_perpendicular (nhat c)) NC) as (v & EV & V0 & VN).
  destruct (sphere_projection r c S0 HR HD HS v EV V0 VN) as [tr' E']. rewrite E in E'. injection E' as -> _ _.
  destruct (con_entries r c S0 HR HD HS v EV V0 VN) as (E00 & E11 & E01 & E10 & _).
  unfold svd_diag2. eapply svd_diag2_ok; eauto. apply Rlt_le.
  assert (0 < norm v). { pose proof (norm_nonneg v). destruct (Req_EM_T (norm v) 0) as [e|e]; [apply norm_zero_iff in e; contradiction|lra]. }
  apply Rdiv_lt_0_compat; nra.
Qed.
Lemma norm_x : forall x, 0 < x -> norm (V3 x 0 0) = x.
Proof. intros x X. unfold norm. replace (nrm2 (V3 x 0 0)) with (Rsqr x) by (unfold Rsqr; vunf; ring). apply sqrt_Rsqr. lra. Qed.
Example C102_ex : exists S1 S2 x, from_semiaxes 3 (fun _ => 1) = Some S1 /\ from_semiaxes 3 (fun _ => 2) = Some S2 /\
  angle_subtended svd_diag2 (translate 3 S1 (vec_of3 (V3 5 0 0))) None false = Ok (asin (1 / 5), asin (1 / 5)) /\
  angle_subtended svd_diag2 (translate 3 S2 (vec_of3 (V3 5 0 0))) None false = Ok (x, x) /\ x <> asin (2 / 5).
Proof.
  assert (N5 : norm (V3 5 0 0) = 5) by (apply norm_x; lra).
  assert (PE : forall v, perpendicular3 (vscale (- / norm (V3 5 0 0)) (V3 5 0 0)) = Ok v -> norm v = 1).
  { intros v. rewrite N5. unfold perpendicular3.
    assert (X : cross (vscale (- / 5) (V3 5 0 0)) ez = V3 0 1 0) by (apply vec3_eq; unfold ez; vunf; field).
    rewrite X. assert (N1 : norm (V3 0 1 0) = 1).
    { unfold norm. replace (nrm2 (V3 0 1 0)) with 1 by (vunf; ring). apply sqrt_1. }
    rewrite N1. destruct (Req_EM_T 1 0); [lra|]. intros E. injection E as <-. exact N1. }
  destruct (C102_sphere svd_diag2 1 (V3 5 0 0) _ ltac:(lra) ltac:(rewrite N5; lra) (from_semiaxes_ok 3 (fun _ => 1) ltac:(intros; cbv beta; lra)))
    as (v1 & EV1 & _ & A1 & _ & I1).
  { intros con tr pt E. refine (sphere_svd 1 (V3 5 0 0) _ _ _ (from_semiaxes_ok 3 (fun _ => 1) _) con tr pt E); try rewrite N5; intros; cbv beta; lra. }
  destruct (C102_sphere svd_diag2 2 (V3 5 0 0) _ ltac:(lra) ltac:(rewrite N5; lra) (from_semiaxes_ok 3 (fun _ => 2) ltac:(intros; cbv beta; lra)))
    as (v2 & EV2 & _ & A2 & _ & I2).
  { intros con tr pt E. refine (sphere_svd 2 (V3 5 0 0) _ _ _ (from_semiaxes_ok 3 (fun _ => 2) _) con tr pt E); try rewrite N5; intros; cbv beta; lra. }
  apply PE in EV1, EV2. rewrite EV1 in *. rewrite EV2 in *. rewrite N5 in *.
  do 3 eexists. split; [apply from_semiaxes_ok; intros; cbv beta; lra|]. split; [apply from_semiaxes_ok; intros; cbv beta; lra|].
  rewrite (proj2 I1) in A1 by lra. split; [exact A1|]. split; [exact A2|]. intros X. apply I2 in X. lra.
Qed.

(** The two angles are given with the larger one first and are never negative. *)
Theorem C102_order : forall svd C viewpoint tangent a b, angle_subtended svd C viewpoint tangent = Ok (a, b) -> 0 <= b <= a.
Proof.
  intros svd C vp t a b H. unfold angle_subtended in H.
  destruct (projection 3 C vp None) as [[[con tr] off]| |]; try discriminate. cbn [rbind] in H.
  destruct (major_axes svd 2 con) as [ax| |]; try discriminate. cbn [rbind] in H. cbv zeta in H.
  set (l0 := normn 2 (ax 0%nat)) in *. set (l1 := normn 2 (ax 1%nat)) in *. set (B := normn 3 off) in *.
  assert (L0 : 0 <= l0) by apply sqrt_pos. assert (L1 : 0 <= l1) by apply sqrt_pos. assert (LB : 0 <= B) by apply sqrt_pos.
  clearbody l0 l1 B. cbn [fst snd] in H.
  assert (M : 0 <= Rmin l0 l1) by (apply Rmin_glb; auto). assert (MM : Rmin l0 l1 <= Rmax l0 l1) by apply Rminmax.
  set (p := Rmin l0 l1) in *. set (q := Rmax l0 l1) in *. clearbody p q.
  destruct t.
  - destruct (Req_EM_T B 0) as [|NB]; [discriminate|]. injection H as <- <-.
    assert (0 < / B) by (apply Rinv_0_lt_compat; lra). unfold Rdiv. split; nra.
  - injection H as <- <-.
    destruct (Req_dec B 0) as [->|NB].
    + assert (U : forall z, 0 < z -> atan2 z 0 = PI / 2).
      { intros z Z. pose proof PI_RGT_0. rewrite <- (atan2_of_polar z (PI / 2) Z) by lra. rewrite sin_PI2, cos_PI2, Rmult_1_r, Rmult_0_r. reflexivity. }
      destruct (Req_dec p 0) as [->|NP]; [rewrite atan2_00; split; [lra|apply (atan2_quadrant q 0); lra]|].
      rewrite !U by lra. pose proof PI_RGT_0. lra.
    + rewrite !atan2_pos by lra. split.
      * rewrite <- atan_0. destruct (Req_dec p 0) as [->|]; [unfold Rdiv; rewrite Rmult_0_l; lra|]. left. apply atan_increasing. apply Rdiv_lt_0_compat; lra.
      * destruct (Req_dec p q) as [->|]; [lra|]. left. apply atan_increasing. apply Rmult_lt_compat_r; [apply Rinv_0_lt_compat; lra|lra].
Qed.

Print Assumptions C102_sphere.
Print Assumptions C102_order.
