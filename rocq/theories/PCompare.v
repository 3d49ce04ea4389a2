(** Properties of the comparison of two fits (C141-C143). *)
From Coq Require Import Reals Lra Lia List Arith Bool Psatz Permutation.
From Verif Require Import RVec Trig LNum SpecPlane MPca LPca LFit LFit2 LAngles LSvd LExamples MStereo MAxes LAxes MShape PShape PPca.
Import ListNotations.
Open Scope R_scope.

(** * C141: the angle between two fits *)
Lemma sphere_triangle : forall a b c x y z, unit3 a -> unit3 b -> unit3 c ->
  0 <= x <= PI -> 0 <= y <= PI -> 0 <= z <= PI -> cos x = dot a b -> cos y = dot b c -> cos z = dot a c -> z <= x + y.
Proof.
  intros a b c x y z A B C X Y Z EX EY EZ.
  destruct (Rle_lt_dec PI (x + y)) as [l|l]; [lra|].
  apply Rnot_lt_le. intros H. apply cos_decreasing_1 in H; try lra. rewrite cos_plus, EX, EY, EZ in H.
  set (a' := vsub a (vscale (dot a b) b)). set (c' := vsub c (vscale (dot b c) b)).
  unfold unit3 in *.
  assert (AA : nrm2 a' = sin x * sin x).
  { pose proof (sin2_cos2 x) as S. unfold Rsqr in S. rewrite EX in S.
    transitivity (nrm2 a - 2 * dot a b * dot a b + dot a b * dot a b * nrm2 b).
    - unfold a', nrm2. destruct a, b. vunf. ring.
    - rewrite A, B. lra. }
  assert (CC : nrm2 c' = sin y * sin y).
  { pose proof (sin2_cos2 y) as S. unfold Rsqr in S. rewrite EY in S.
    transitivity (nrm2 c - 2 * dot b c * dot b c + dot b c * dot b c * nrm2 b).
    - unfold c', nrm2. destruct c, b. vunf. ring.
    - rewrite C, B. lra. }
  assert (AC : dot a' c' = dot a c - dot a b * dot b c).
  { transitivity (dot a c - 2 * dot a b * dot b c + dot a b * dot b c * nrm2 b).
    - unfold a', c', nrm2. destruct a, b, c. vunf. ring.
    - rewrite B. ring. }
  pose proof (cauchy_schwarz a' c') as CS. rewrite AA, CC, AC in CS.
  pose proof (sin_ge_0 x (proj1 X) (proj2 X)) as SX. pose proof (sin_ge_0 y (proj1 Y) (proj2 Y)) as SY.
  assert (0 <= sin x * sin y) by (apply Rmult_le_pos; auto).
  assert (dot a c - dot a b * dot b c < - (sin x * sin y)) by lra.
  set (k := dot a c - dot a b * dot b c) in *. set (q := sin x * sin y) in *.
  replace (sin x * sin x * (sin y * sin y)) with (q * q) in CS by (unfold q; ring). nra.
Qed.
Lemma fit_unit : forall svd arr f, lapack svd -> PCAOrientation svd arr None None = Ok f -> unit3 (p_normal f).
Proof.
  intros svd arr f L F. destruct (fit_inv _ _ _ L F) as (_ & u & m & Hs & _ & _ & _ & _ & _ & _ & D).
  destruct (normal_line f D) as [-> | ->].
  - apply orthonormal_unit2. exact (svd_v _ _ _ _ Hs).
  - unfold unit3. rewrite nrm2_neg. apply orthonormal_unit2. exact (svd_v _ _ _ _ Hs).
Qed.
Lemma unit_dot1 : forall a b, unit3 a -> unit3 b -> dot a b = 1 -> a = b.
Proof.
  intros a b A B E. assert (Z : nrm2 (vsub a b) = 0).
  { transitivity (nrm2 a - 2 * dot a b + nrm2 b); [unfold nrm2; destruct a, b; vunf; ring|]. unfold unit3 in *. lra. }
  apply nrm2_zero in Z. assert (X := f_equal vx Z). assert (Y := f_equal vy Z). assert (W := f_equal vz Z).
  apply vec3_eq; revert X Y W; vunf; lra.
Qed.
(** It is the angle of the upward normals: between 0 and 180 degrees, symmetric, zero
    exactly for equal normals, and a distance. *)
Theorem C141_angle : forall svd arr1 arr2 arr3 f1 f2 f3, lapack svd -> PCAOrientation svd arr1 None None = Ok f1 ->
  PCAOrientation svd arr2 None None = Ok f2 -> PCAOrientation svd arr3 None None = Ok f3 ->
  exists x y z, fit_angle f1 f2 = Some x /\ fit_angle f2 f3 = Some y /\ fit_angle f1 f3 = Some z /\
  0 <= x <= 180 /\ cos (radians x) = dot (p_normal f1) (p_normal f2) /\
  fit_angle f2 f1 = Some x /\ (x = 0 <-> p_normal f1 = p_normal f2) /\ z <= x + y.
Proof.
  intros svd arr1 arr2 arr3 f1 f2 f3 L F1 F2 F3.
  pose proof (fit_unit _ _ _ L F1) as U1. pose proof (fit_unit _ _ _ L F2) as U2. pose proof (fit_unit _ _ _ L F3) as U3.
  destruct (vangle_unit _ _ U1 U2) as (x & X & BX & CX). destruct (vangle_unit _ _ U2 U3) as (y & Y & BY & CY).
  destruct (vangle_unit _ _ U1 U3) as (z & Z & BZ & CZ). pose proof PI_RGT_0 as PP.
  exists (degrees x), (degrees y), (degrees z). unfold fit_angle. rewrite X, Y, Z. cbn [option_map].
  assert (DI : forall t, radians (degrees t) = t) by (intros t; unfold radians, degrees; field; lra).
  assert (P180 : 0 < 180 / PI) by (apply Rdiv_lt_0_compat; lra).
  assert (DE : forall t, degrees t = t * (180 / PI)) by (intros t; unfold degrees; field; lra).
  repeat split; auto.
  - rewrite DE. apply Rmult_le_pos; lra.
  - rewrite DE. apply Rmult_le_reg_r with (PI / 180); [lra|]. replace (x * (180 / PI) * (PI / 180)) with x by (field; lra). lra.
  - now rewrite DI.
  - replace (vangle (p_normal f2) (p_normal f1)) with (vangle (p_normal f1) (p_normal f2)); [now rewrite X|].
    unfold vangle. now rewrite (Rmult_comm (norm (p_normal f2))), (dot_comm (p_normal f2)).
  - intros E. assert (x = 0) by (rewrite <- (DI x), E; unfold radians; field). subst x.
    rewrite cos_0 in CX. now apply unit_dot1.
  - intros E. rewrite E in CX. unfold unit3, nrm2 in U2. rewrite U2 in CX.
    assert (x = 0). { pose proof (acos_unique x 1 BX CX) as K. rewrite acos_1 in K. auto. }
    subst x. rewrite DE. ring.
  - pose proof (sphere_triangle _ _ _ x y z U1 U2 U3 BX BY BZ CX CY CZ) as T.
    rewrite !DE. nra.
Qed.
(** For steep planes the angle depends on signs the decomposition is free to choose: the
    same points, decomposed with another choice, are 180 degrees apart. *)
Definition svd_opp (a : list vec3) : list vec3 * vec3 * mat3 :=
  let '(u, s, v) := svd_ref a in (map vneg u, s, mneg v).
Lemma svd_opp_ok : lapack svd_opp.
Proof.
  intros a Ha. pose proof (svd_ref_ok a Ha) as H. unfold svd_ok_on, svd_opp in *.
  destruct (svd_ref a) as [[u s] v]. destruct H.
  constructor; auto; rewrite ?sumf_map.
  - rewrite svd_fact, map_map. apply map_ext. intros []. destruct v as [[] [] []], s. apply vec3_eq; munf; ring.
  - rewrite (sumf_ext _ _ (fun p => vx p * vx p)); auto. intros [] _; vunf; ring.
  - rewrite (sumf_ext _ _ (fun p => vy p * vy p)); auto. intros [] _; vunf; ring.
  - rewrite (sumf_ext _ _ (fun p => vz p * vz p)); auto. intros [] _; vunf; ring.
  - rewrite (sumf_ext _ _ (fun p => vx p * vy p)); auto. intros [] _; vunf; ring.
  - rewrite (sumf_ext _ _ (fun p => vx p * vz p)); auto. intros [] _; vunf; ring.
  - rewrite (sumf_ext _ _ (fun p => vy p * vz p)); auto. intros [] _; vunf; ring.
  - now apply orthonormal_neg.
Qed.
Lemma vertical_axis : forall svd f, lapack svd -> PCAOrientation svd (axis_data 1 2 3) None None = Ok f -> vz (r2 (p_axes f)) = 0.
Proof.
  intros svd f L F. destruct (fit_inv _ _ _ L F) as (_ & u & m & Hs & _). rewrite axis_centered in Hs.
  pose proof (Q_lower _ _ _ _ ex Hs ltac:(unfold nrm2; vunf; ring)) as LO. destruct (Q_axes _ _ _ _ Hs) as (_ & _ & A2).
  destruct (svd_v _ _ _ _ Hs) as (_ & _ & o2 & _). rewrite axis_Q in LO, A2. unfold ex, dot in *. cbn [vx vy vz] in *.
  set (n := r2 (p_axes f)) in *. nra.
Qed.
Theorem C141_sign_refuted : exists svd1 svd2 arr f1 f2, lapack svd1 /\ lapack svd2 /\
  PCAOrientation svd1 arr None None = Ok f1 /\ PCAOrientation svd2 arr None None = Ok f2 /\ fit_angle f1 f2 = Some 180.
Proof.
  exists svd_ref, svd_opp, (axis_data 1 2 3). destruct (axis_fit 1 2 3) as [f1 F1].
  destruct (fit_exists svd_opp (axis_data 1 2 3) svd_opp_ok) as [f2 F2]. { simpl; lia. }
  exists f1, f2. split; [exact lapack_ref|]. split; [exact svd_opp_ok|]. split; auto. split; auto.
  assert (A : p_axes f2 = mneg (p_axes f1)).
  { clear - F1 F2. unfold PCAOrientation, run_svd in F1, F2. rewrite centered_length in F1, F2.
    change ((length (axis_data 1 2 3) <? 3)%nat) with false in F1, F2. rewrite has_zero_ones in F1, F2.
    unfold svd_opp in F2. destruct (svd_ref _) as [[u s] v]. injection F1 as <-. injection F2 as <-. reflexivity. }
  pose proof (vertical_axis _ _ lapack_ref F1) as V1. pose proof (vertical_axis _ _ svd_opp_ok F2) as V2.
  pose proof (fit_unit _ _ _ lapack_ref F1) as U1.
  destruct (fit_inv _ _ _ lapack_ref F1) as (_ & _ & _ & _ & _ & _ & _ & _ & _ & _ & D1).
  destruct (fit_inv _ _ _ svd_opp_ok F2) as (_ & _ & _ & _ & _ & _ & _ & _ & _ & _ & D2).
  assert (N1 : p_normal f1 = r2 (p_axes f1)) by (unfold p_normal; destruct D1 as [-> _]; unfold derived_normal; rewrite V1; destruct (Rlt_dec 0 0); [lra|reflexivity]).
  assert (N2 : p_normal f2 = r2 (p_axes f2)) by (unfold p_normal; destruct D2 as [-> _]; unfold derived_normal; rewrite V2; destruct (Rlt_dec 0 0); [lra|reflexivity]).
  assert (NN : p_normal f2 = vneg (p_normal f1)) by (rewrite N1, N2, A; reflexivity).
  unfold fit_angle. rewrite NN, vangle_neg by auto.
  destruct (vangle_unit _ _ U1 U1) as (t & E & B & C). unfold unit3, nrm2 in U1. rewrite U1 in C.
  pose proof (acos_unique t 1 B C) as K. rewrite acos_1 in K. rewrite E. subst t. cbn [option_map]. f_equal. unfold degrees.
  pose proof PI_RGT_0. field. lra.
Qed.
Example C141_ex : exists f1 f2, PCAOrientation svd_ref (axis_data 3 2 1) None None = Ok f1 /\
  PCAOrientation svd_ref tilted_data None None = Ok f2 /\ p_normal f1 <> p_normal f2.
Proof.
  destruct (axis_fit 3 2 1) as [f1 F1]. destruct tilted_fit as (f2 & F2 & N2 & _). exists f1, f2. repeat split; auto.
  rewrite N2, (axis_normal _ _ lapack_ref F1). intros E. injection E. lra.
Qed.

(** * C142: the similarity of two fits *)
Lemma fdiv_some : forall a b q, fdiv a b = Some q -> b <> 0 /\ q = a / b.
Proof. intros a b q. unfold fdiv. destruct (Req_EM_T b 0); [discriminate|]. intros H. injection H as <-. auto. Qed.
Lemma fsqrt_some : forall a q, fsqrt a = Some q -> 0 <= a /\ q = sqrt a.
Proof. intros a q. unfold fsqrt. destruct (Rlt_dec a 0); [discriminate|]. intros H. injection H as <-. split; auto. lra. Qed.
Lemma obind_some : forall A B (o : option A) (g : A -> option B) b, obind o g = Some b -> exists a, o = Some a /\ g a = Some b.
Proof. intros A B [a|] g b H; [exists a; auto|discriminate]. Qed.
Lemma vsqrt_some : forall v q, vsqrt v = Some q -> q = V3 (sqrt (vx v)) (sqrt (vy v)) (sqrt (vz v)).
Proof.
  intros v q. unfold vsqrt. destruct (fsqrt (vx v)) eqn:A; [|discriminate]. destruct (fsqrt (vy v)) eqn:B; [|discriminate].
  destruct (fsqrt (vz v)) eqn:C; [|discriminate]. intros H. injection H as <-.
  apply fsqrt_some in A, B, C. destruct A as [_ ->], B as [_ ->], C as [_ ->]. reflexivity.
Qed.

(** Never negative, and zero exactly for equal normals. *)
Theorem C142_zero : forall svd f1 f2 x, lapack svd -> fit_similarity svd f1 f2 = Some x ->
  0 <= x /\ (x = 0 <-> p_normal f1 = p_normal f2).
Proof.
  intros svd f1 f2 x L H. unfold fit_similarity in H.
  apply obind_some in H. destruct H as (c1 & _ & H). apply obind_some in H. destruct H as (c2 & _ & H).
  set (cov2 := if Rlt_dec (vz (r2 (p_axes f2))) 0 then mneg c2 else c2) in H. clearbody cov2. cbv zeta in H.
  pose proof (L [r0 (madd c1 cov2); r1 (madd c1 cov2); r2 (madd c1 cov2)] ltac:(simpl; lia)) as SV. unfold svd_ok_on in SV.
  destruct (svd _) as [[u s] V]. apply obind_some in H. destruct H as (q & Q & H). apply vsqrt_some in Q. subst q. cbn [vx vy vz] in H.
  pose proof (svd_v _ _ _ _ SV) as O.
  set (w := vsub (p_normal f1) (p_normal f2)) in *. set (r := mv V w) in *.
  apply obind_some in H. destruct H as (a & A & H). apply obind_some in H. destruct H as (b & B & H). apply obind_some in H. destruct H as (c & C & H).
  apply fdiv_some in A, B, C. destruct A as [A0 ->], B as [B0 ->], C as [C0 ->]. apply fsqrt_some in H. destruct H as [_ ->].
  assert (P : forall t, sqrt t <> 0 -> 0 < sqrt t) by (intros t T; pose proof (sqrt_pos t); lra).
  apply P in A0, B0, C0. split; [apply sqrt_pos|].
  assert (NN : forall k t, 0 < t -> 0 <= k * k / t) by (intros k t T; apply Rmult_le_pos; [nra|left; now apply Rinv_0_lt_compat]).
  assert (ZZ : forall k t, 0 < t -> k * k / t = 0 -> k = 0).
  { intros k t T E. assert (k * k = 0) by (apply Rmult_eq_reg_r with (/ t); [unfold Rdiv in E; lra|apply Rinv_neq_0_compat; lra]). nra. }
  pose proof (NN (vx r) _ A0). pose proof (NN (vy r) _ B0). pose proof (NN (vz r) _ C0).
  split.
  - intros E. apply sqrt_eq_0 in E; [|lra].
    assert (X : vx r = 0) by (apply (ZZ _ _ A0); lra). assert (Y : vy r = 0) by (apply (ZZ _ _ B0); lra). assert (Z : vz r = 0) by (apply (ZZ _ _ C0); lra).
    assert (R : r = vzero) by (apply vec3_eq; simpl; auto).
    pose proof (orthonormal_expand V w O) as EX. fold r in EX. rewrite R in EX.
    assert (WZ : w = vzero) by (rewrite <- EX; destruct V as [[] [] []]; apply vec3_eq; munf; ring).
    assert (X1 := f_equal vx WZ). assert (Y1 := f_equal vy WZ). assert (Z1 := f_equal vz WZ). unfold w in X1, Y1, Z1.
    apply vec3_eq; revert X1 Y1 Z1; vunf; lra.
  - intros E. assert (WZ : w = vzero) by (unfold w; rewrite E; apply vec3_eq; vunf; ring).
    assert (R : r = vzero) by (unfold r; rewrite WZ; destruct V as [[] [] []]; apply vec3_eq; munf; ring).
    rewrite R. cbn [vzero vx vy vz]. unfold Rdiv. rewrite !Rmult_0_l, !Rplus_0_l. apply sqrt_0.
Qed.

Lemma singular_kernel : forall svd A u s v, lapack svd -> svd [r0 A; r1 A; r2 A] = (u, s, v) ->
  (vz s = 0 <-> exists d, d <> vzero /\ mv A d = vzero) /\ 0 <= vz s /\ vz s <= vy s /\ vy s <= vx s.
Proof.
  intros svd A u s v L E. pose proof (L [r0 A; r1 A; r2 A] ltac:(simpl; lia)) as H. unfold svd_ok_on in H. rewrite E in H.
  split; [|split; [exact (svd_s2 _ _ _ _ H)|split; [exact (svd_s12 _ _ _ _ H)|exact (svd_s01 _ _ _ _ H)]]].
  assert (QN : forall d, Q [r0 A; r1 A; r2 A] d d = nrm2 (mv A d)) by (intros d; unfold Q, nrm2, mv; simpl; unfold dot; simpl; ring).
  split.
  - intros Z. exists (r2 v). split.
    + intros X. destruct (svd_v _ _ _ _ H) as (_ & _ & o & _). rewrite X in o. revert o. vunf. lra.
    + apply nrm2_zero. rewrite <- QN. destruct (Q_axes _ _ _ _ H) as (_ & _ & K). rewrite K, Z. ring.
  - intros (d & D0 & DZ). set (k := norm d). assert (K : k <> 0) by (intros X; apply D0; now apply norm_zero_iff).
    pose proof (svd_s2 _ _ _ _ H) as P.
    assert (U : nrm2 (vscale (/ k) d) = 1).
    { transitivity (/ k * / k * nrm2 d); [unfold nrm2; destruct d; vunf; ring|].
      assert (KK : k * k = nrm2 d) by (unfold k, norm; apply sqrt_sqrt; unfold nrm2; destruct d; vunf; nra).
      rewrite <- KK. field. auto. }
    pose proof (Q_lower _ _ _ _ _ H U) as LO. rewrite QN in LO.
    assert (Z : mv A (vscale (/ k) d) = vzero).
    { transitivity (vscale (/ k) (mv A d)); [destruct A as [[] [] []], d; apply vec3_eq; munf; ring|]. rewrite DZ. apply vec3_eq; vunf; ring. }
    rewrite Z in LO. assert (nrm2 vzero = 0) by (unfold nrm2; vunf; ring). nra.
Qed.
Lemma aligned_some : forall f c, covariance_noise f = Some c -> 0 < vx c -> 
  aligned_covariance TNoise f = Some (M3 (vmul (r0 (p_axes f)) (vscale (/ norm c) c)) (vmul (r1 (p_axes f)) (vscale (/ norm c) c)) (vmul (r2 (p_axes f)) (vscale (/ norm c) c))) /\ 0 < norm c.
Proof.
  intros f c C P. assert (N : 0 < norm c).
  { unfold norm. apply sqrt_lt_R0. unfold nrm2. destruct c. revert P. vunf. simpl. nra. }
  split; auto. unfold aligned_covariance, covariance_of. rewrite C. cbn [obind]. destruct (Req_EM_T _ 0); [lra|reflexivity].
Qed.
(** A fit compared with itself: zero when its third axis points up, and not a number when
    it points down, until one of the operations that turn the axes has been called. *)
Theorem C142_self : forall svd svd' arr f c, lapack svd -> lapack svd' -> PCAOrientation svd arr None None = Ok f ->
  covariance_noise f = Some c -> 0 < vx c -> 0 < vy c -> 0 < vz c ->
  (fit_similarity svd' f f = if Rlt_dec (vz (r2 (p_axes f))) 0 then None else Some 0) /\
  let g := run_calls f [CAsConic] in fit_similarity svd' g g = Some 0.
Proof.
  intros svd svd' arr f c L L' F CV C0 C1 C2.
  destruct (fit_inv _ _ _ L F) as (_ & u & m & Hs & _ & _ & _ & _ & _ & _ & D). pose proof (svd_v _ _ _ _ Hs) as O.
  assert (GEN : forall h, orthonormal (p_axes h) -> covariance_noise h = Some c ->
    fit_similarity svd' h h = if Rlt_dec (vz (r2 (p_axes h))) 0 then None else Some 0).
  { intros h OH CH. destruct (aligned_some h c CH C0) as [AL NC]. unfold fit_similarity. rewrite AL. cbn [obind].
    set (e := vscale (/ norm c) c). set (A := M3 (vmul (r0 (p_axes h)) e) (vmul (r1 (p_axes h)) e) (vmul (r2 (p_axes h)) e)).
    assert (E0 : 0 < vx e /\ 0 < vy e /\ 0 < vz e).
    { assert (0 < / norm c) by now apply Rinv_0_lt_compat. unfold e. cbn [vscale vx vy vz]. repeat split; now apply Rmult_lt_0_compat. }
    destruct (Rlt_dec (vz (r2 (p_axes h))) 0) as [lt|ge].
    - set (Z := madd A (mneg A)). assert (ZZ : forall d, mv Z d = vzero) by (intros []; unfold Z; destruct A as [[] [] []]; apply vec3_eq; munf; ring).
      destruct (svd' [r0 Z; r1 Z; r2 Z]) as [[u' s] V] eqn:SV.
      destruct (singular_kernel svd' Z _ _ _ L' SV) as ((_ & KZ) & S2 & S12 & S01).
      assert (K : vz s = 0) by (apply KZ; exists ez; split; auto; intros X; injection X; lra).
      destruct (vsqrt s) as [q|] eqn:VQ; [|reflexivity]. cbn [obind]. apply vsqrt_some in VQ. subst q. cbn [vx vy vz].
      rewrite K, sqrt_0. unfold fdiv at 3. destruct (Req_EM_T 0 0) as [_|n]; [|lra].
      destruct (fdiv _ (sqrt (vx s))); [|reflexivity]. destruct (fdiv _ (sqrt (vy s))); reflexivity.
    - set (Z := madd A A). destruct (svd' [r0 Z; r1 Z; r2 Z]) as [[u' s] V] eqn:SV.
      destruct (singular_kernel svd' Z _ _ _ L' SV) as ((KZ & _) & S2 & S12 & S01).
      assert (K : vz s <> 0).
      { intros X. destruct (KZ X) as (d & D0 & DZ). apply D0.
        assert (MZ : mv (p_axes h) (vmul d e) = vzero).
        { assert (X1 := f_equal vx DZ). assert (X2 := f_equal vy DZ). assert (X3 := f_equal vz DZ). clear - X1 X2 X3.
          unfold Z, A in *. destruct (p_axes h) as [[] [] []], d, e. apply vec3_eq; revert X1 X2 X3; munf; simpl; lra. }
        pose proof (orthonormal_expand (p_axes h) (vmul d e) OH) as EX. rewrite MZ in EX.
        assert (VZ : vmul d e = vzero) by (rewrite <- EX; clear; destruct (p_axes h) as [[] [] []]; apply vec3_eq; munf; ring).
        destruct E0 as (e0 & e1 & e2). assert (X1 := f_equal vx VZ). assert (X2 := f_equal vy VZ). assert (X3 := f_equal vz VZ).
        revert X1 X2 X3. cbn [vmul vx vy vz vzero]. intros X1 X2 X3.
        apply Rmult_integral in X1, X2, X3. apply vec3_eq; cbn [vzero vx vy vz]; [destruct X1|destruct X2|destruct X3]; lra. }
      assert (PS : 0 < vz s /\ 0 < vy s /\ 0 < vx s) by lra. destruct PS as (P2 & P1 & P0).
      unfold vsqrt, fsqrt at 1 2 3. destruct (Rlt_dec (vx s) 0); [lra|]. destruct (Rlt_dec (vy s) 0); [lra|]. destruct (Rlt_dec (vz s) 0); [lra|].
      cbn [obind vx vy vz]. assert (Q0 := sqrt_lt_R0 _ P0). assert (Q1 := sqrt_lt_R0 _ P1). assert (Q2 := sqrt_lt_R0 _ P2).
      unfold fdiv. destruct (Req_EM_T (sqrt (vx s)) 0); [lra|]. destruct (Req_EM_T (sqrt (vy s)) 0); [lra|]. destruct (Req_EM_T (sqrt (vz s)) 0); [lra|].
      cbn [obind].
      assert (R : mv V (vsub (p_normal h) (p_normal h)) = vzero) by (destruct V as [[] [] []], (p_normal h); apply vec3_eq; munf; ring).
      rewrite R. cbn [vzero vx vy vz]. unfold Rdiv. rewrite !Rmult_0_l, !Rplus_0_l. unfold fsqrt. destruct (Rlt_dec 0 0); [lra|].
      now rewrite sqrt_0. }
  split; [now apply GEN|]. cbv zeta.
  assert (RC : run_calls f [CAsConic] = flip_down_axes f) by reflexivity. rewrite RC.
  rewrite GEN.
  - destruct (Rlt_dec (vz (r2 (p_axes (flip_down_axes f)))) 0) as [lt|]; [|reflexivity]. exfalso. revert lt. unfold flip_down_axes.
    destruct (Rlt_dec (vz (r2 (p_axes f))) 0); [|contradiction]. cbn [with_axes p_axes mneg r2 vneg vz]. lra.
  - unfold flip_down_axes. destruct (Rlt_dec (vz (r2 (p_axes f))) 0); auto. now apply orthonormal_neg.
  - now rewrite flip_covariance.
Qed.

(** a fit whose third axis points down *)
Lemma down_fit : exists f c, PCAOrientation svd_down tilted_data None None = Ok f /\ vz (r2 (p_axes f)) < 0 /\
  covariance_noise f = Some c /\ 0 < vx c /\ 0 < vy c /\ 0 < vz c.
Proof.
  destruct C26_ex as (f & F & Z & _). exists f. eexists. split; auto. split; auto.
  split; [exact (covariance_noise_value _ _ _ svd_down_ok F)|].
  destruct tilted_fit as (f0 & F0 & N0 & G0 & P0).
  destruct (perm_fits _ _ _ _ _ _ lapack_ref svd_down_ok (Permutation_refl _) F0 F) as (S & _ & _ & _). rewrite S.
  destruct (fit_inv _ _ _ lapack_ref F0) as (_ & u & m & Hs & _).
  pose proof (svd_s01 _ _ _ _ Hs). pose proof (svd_s12 _ _ _ _ Hs). cbn [vscale vx vy vz].
  assert (0 < 4 / INR (length tilted_data)) by (apply Rdiv_lt_0_compat; [lra|apply lt_0_INR; simpl; lia]).
  repeat split; repeat apply Rmult_lt_0_compat; lra.
Qed.
Theorem C142_self_refuted : exists svd arr f, lapack svd /\ PCAOrientation svd arr None None = Ok f /\
  forall svd', lapack svd' -> fit_similarity svd' f f = None.
Proof.
  destruct down_fit as (f & c & F & Z & CV & C0 & C1 & C2). exists svd_down, tilted_data, f.
  split; [exact svd_down_ok|]. split; auto. intros svd' L'.
  destruct (C142_self _ svd' _ f c svd_down_ok L' F CV C0 C1 C2) as [-> _]. destruct (Rlt_dec _ _); [reflexivity|contradiction].
Qed.
(** Nor is it symmetric: the same fit before and after its axes are turned. *)
Theorem C142_symmetric_refuted : exists svd arr f g, lapack svd /\ PCAOrientation svd arr None None = Ok f /\
  g = run_calls f [CAsConic] /\ forall svd', lapack svd' -> fit_similarity svd' f g = None /\ fit_similarity svd' g f = Some 0.
Proof.
  destruct down_fit as (f & c & F & Z & CV & C0 & C1 & C2). exists svd_down, tilted_data, f, (run_calls f [CAsConic]).
  split; [exact svd_down_ok|]. split; auto. split; auto. intros svd' L'.
  destruct (C142_self _ svd' _ f c svd_down_ok L' F CV C0 C1 C2) as [SF SG]. cbv zeta in SG.
  destruct (Rlt_dec (vz (r2 (p_axes f))) 0) as [_|n] in SF; [|contradiction].
  assert (RC : run_calls f [CAsConic] = flip_down_axes f) by reflexivity. rewrite RC in *.
  destruct (fit_inv _ _ _ svd_down_ok F) as (_ & u & m & Hs & _ & _ & _ & _ & _ & _ & D).
  destruct (step_same f CAsConic (good_derived f D)) as (S2 & _ & _). cbn [step] in S2.
  pose proof (sf_normal _ _ S2) as N. set (g := flip_down_axes f) in *.
  assert (AG : p_axes g = mneg (p_axes f)).
  { unfold g, flip_down_axes. destruct (Rlt_dec (vz (r2 (p_axes f))) 0); [reflexivity|contradiction]. }
  assert (CG : covariance_noise g = Some c) by (unfold g; now rewrite flip_covariance).
  destruct (aligned_some f c CV C0) as [AF _]. destruct (aligned_some g c CG C0) as [AG' _].
  assert (ZG : 0 <= vz (r2 (p_axes g))) by (rewrite AG; cbn [mneg r2 vneg vz]; lra).
  set (A := M3 (vmul (r0 (p_axes f)) (vscale (/ norm c) c)) (vmul (r1 (p_axes f)) (vscale (/ norm c) c)) (vmul (r2 (p_axes f)) (vscale (/ norm c) c))) in *.
  assert (AGN : aligned_covariance TNoise g = Some (mneg A)).
  { rewrite AG'. f_equal. rewrite AG. unfold A. destruct (p_axes f) as [[] [] []], (vscale (/ norm c) c). unfold mneg, vneg, vmul. simpl. f_equal; apply vec3_eq; simpl; ring. }
  clear AG'. unfold fit_similarity in *. rewrite AF, AGN in *. cbn [obind] in *.
  destruct (Rlt_dec (vz (r2 (p_axes g))) 0) as [h|_]; [lra|].
  destruct (Rlt_dec (vz (r2 (p_axes f))) 0) as [_|h]; [|contradiction].
  split.
  - rewrite <- SF. rewrite <- N. reflexivity.
  - rewrite <- SG. rewrite <- N. reflexivity.
Qed.

Lemma aligned_scaled : forall f g c k, 0 < k -> p_axes g = p_axes f -> covariance_noise f = Some c ->
  covariance_noise g = Some (vscale k c) -> aligned_covariance TNoise g = aligned_covariance TNoise f.
Proof.
  intros f g c k K A CF CG. unfold aligned_covariance, covariance_of. rewrite CF, CG, A. cbn [obind].
  assert (N : norm (vscale k c) = k * norm c) by (rewrite norm_scale, Rabs_right by lra; reflexivity).
  rewrite N. destruct (Req_EM_T (k * norm c) 0) as [e|e], (Req_EM_T (norm c) 0) as [h|h]; auto.
  - apply Rmult_integral in e. lra.
  - exfalso. apply e. rewrite h. ring.
  - assert (E : vscale (/ (k * norm c)) (vscale k c) = vscale (/ norm c) c) by (destruct c as [x y z]; apply vec3_eq; cbn [vscale vx vy vz]; field; split; auto; lra).
    rewrite E. reflexivity.
Qed.
Lemma same_axes_normal : forall svd svd' arr arr' f g, lapack svd -> lapack svd' -> PCAOrientation svd arr None None = Ok f ->
  PCAOrientation svd' arr' None None = Ok g -> p_axes g = p_axes f -> p_normal g = p_normal f.
Proof.
  intros svd svd' arr arr' f g L L' F G A.
  destruct (fit_inv _ _ _ L F) as (_ & _ & _ & _ & _ & _ & _ & _ & _ & _ & D). destruct (fit_inv _ _ _ L' G) as (_ & _ & _ & _ & _ & _ & _ & _ & _ & _ & D').
  unfold p_normal. destruct D as [-> _], D' as [-> _]. unfold derived_normal. rewrite A. reflexivity.
Qed.
(** It is not a number of standard deviations: measurements k times as large, or made
    twice, give the same value, whatever the other fit is. *)
Theorem C142_scale : forall svd svd1 svd2 arr f g h k, lapack svd1 -> lapack svd2 -> 0 < k ->
  PCAOrientation svd1 arr None None = Ok f -> PCAOrientation svd2 (map (vscale k) arr) None None = Ok g ->
  p_axes g = p_axes f ->
  fit_similarity svd g h = fit_similarity svd f h /\ fit_similarity svd h g = fit_similarity svd h f.
Proof.
  intros svd svd1 svd2 arr f g h k L1 L2 K F G A.
  destruct (scale_fits _ _ _ _ _ _ L1 L2 K F G) as (S & _).
  pose proof (covariance_noise_value _ _ _ L1 F) as CF. pose proof (covariance_noise_value _ _ _ L2 G) as CG.
  rewrite map_length, S in CG.
  assert (KK : 0 < k * k * k) by (repeat apply Rmult_lt_0_compat; auto).
  assert (AL : aligned_covariance TNoise g = aligned_covariance TNoise f).
  { apply (aligned_scaled f g _ (k * k * k) KK A CF). rewrite CG. f_equal. apply vec3_eq; cbn [vscale vx vy vz]; ring. }
  pose proof (same_axes_normal _ _ _ _ _ _ L1 L2 F G A) as N.
  unfold fit_similarity. rewrite AL, N, A. auto.
Qed.
Lemma sumf_twice : forall (g : vec3 -> R) l, sumf g (l ++ l) = 2 * sumf g l.
Proof. intros. rewrite sumf_app. ring. Qed.
Lemma vsum_app : forall a b, vsum (a ++ b) = vadd (vsum a) (vsum b).
Proof.
  intros a b. apply vec3_eq; unfold vsum; cbn [vadd vx vy vz]; apply sumf_app.
Qed.
Lemma centered_twice : forall arr, arr <> [] -> centered (arr ++ arr) = centered arr ++ centered arr.
Proof.
  intros arr N. unfold centered.
  assert (M : np_mean (arr ++ arr) = np_mean arr).
  { destruct arr as [|x l]; [congruence|]. unfold np_mean. cbn [app]. f_equal.
    change (x :: l ++ x :: l) with ((x :: l) ++ (x :: l)). set (a := x :: l) in *.
    assert (P : 0 < INR (length a)) by (apply lt_0_INR; simpl; lia).
    rewrite app_length, plus_INR, vsum_app.
    apply vec3_eq; destruct (vsum a); vunf; field; lra. }
  rewrite M. destruct (np_mean arr); [now rewrite map_app|reflexivity].
Qed.
Theorem C142_repeat : forall svd svd1 svd2 arr f g h, lapack svd1 -> lapack svd2 ->
  PCAOrientation svd1 arr None None = Ok f -> PCAOrientation svd2 (arr ++ arr) None None = Ok g ->
  p_axes g = p_axes f ->
  fit_similarity svd g h = fit_similarity svd f h /\ fit_similarity svd h g = fit_similarity svd h f.
Proof.
  intros svd svd1 svd2 arr f g h L1 L2 F G A.
  destruct (fit_inv _ _ _ L1 F) as (Hn & _).
  assert (NE : arr <> []) by (intros X; rewrite X in Hn; simpl in Hn; lia).
  assert (P2 : 0 < sqrt 2) by (apply sqrt_lt_R0; lra). assert (S2 : sqrt 2 * sqrt 2 = 2) by (apply sqrt_sqrt; lra).
  assert (QQ : forall d e, Q (centered (arr ++ arr)) (mv mid d) (mv mid e) = sqrt 2 * sqrt 2 * Q (centered arr) d e).
  { intros d e. rewrite centered_twice by auto. unfold Q. rewrite sumf_twice, S2. f_equal. apply sumf_ext. intros p _.
    destruct d, e, p. munf. ring. }
  assert (OI : orthonormal mid) by (unfold orthonormal, mid; munf; repeat split; ring).
  destruct (two_fits _ _ _ _ _ _ mid (sqrt 2) L1 L2 F G OI P2 QQ) as (S & _).
  pose proof (covariance_noise_value _ _ _ L1 F) as CF. pose proof (covariance_noise_value _ _ _ L2 G) as CG.
  rewrite app_length, S, plus_INR in CG. assert (LP : 0 < INR (length arr)) by (apply lt_0_INR; lia).
  assert (AL : aligned_covariance TNoise g = aligned_covariance TNoise f).
  { apply (aligned_scaled f g _ (sqrt 2) P2 A CF). rewrite CG. f_equal.
    apply vec3_eq; cbn [vscale vx vy vz].
    all: match goal with |- 4 / _ * (sqrt 2 * ?x * _ * _) = _ =>
      replace (sqrt 2 * x * (sqrt 2 * x) * (sqrt 2 * x)) with (sqrt 2 * (sqrt 2 * sqrt 2) * (x * x * x)) by ring end; rewrite S2; field; lra. }
  pose proof (same_axes_normal _ _ _ _ _ _ L1 L2 F G A) as N.
  unfold fit_similarity. rewrite AL, N, A. auto.
Qed.

Example C142_ex : exists f c, PCAOrientation svd_ref (axis_data 3 2 1) None None = Ok f /\
  covariance_noise f = Some c /\ 0 < vx c /\ 0 < vy c /\ 0 < vz c.
Proof. exact axis_variances. Qed.

(** * C143: the aligned covariance *)
Definition frobenius (A : mat3) : R := sqrt (nrm2 (r0 A) + nrm2 (r1 A) + nrm2 (r2 A)).
(** the covariance with variances c along the axes, in data coordinates *)
Definition covariance_in_data (A : mat3) (c : vec3) : mat3 :=
  let D := M3 (vscale (vx c) (r0 A)) (vscale (vy c) (r1 A)) (vscale (vz c) (r2 A)) in
  M3 (vm (r0 (mT A)) D) (vm (r1 (mT A)) D) (vm (r2 (mT A)) D).
(** Its columns are those of the axes, as long as the variances and, together, of length
    one: the squares of the rescaled variances sum to one, so the variances themselves
    sum to more. *)
Theorem C143_aligned : forall svd arr f c, lapack svd -> PCAOrientation svd arr None None = Ok f ->
  covariance_noise f = Some c -> 0 < vx c -> 0 < vy c -> 0 < vz c ->
  exists A k, aligned_covariance TNoise f = Some A /\ 0 < k /\ frobenius A = 1 /\
  nrm2 (r0 (mT A)) = k * vx c * (k * vx c) /\ nrm2 (r1 (mT A)) = k * vy c * (k * vy c) /\ nrm2 (r2 (mT A)) = k * vz c * (k * vz c) /\
  1 < k * vx c + k * vy c + k * vz c.
Proof.
  intros svd arr f c L F CV C0 C1 C2. destruct (aligned_some f c CV C0) as [AL NC].
  destruct (fit_inv _ _ _ L F) as (_ & u & m & Hs & _). pose proof (svd_v _ _ _ _ Hs) as O.
  apply orthonormal_T in O. destruct O as (O00 & O11 & O22 & _).
  eexists. exists (/ norm c). split; [exact AL|]. assert (K : 0 < / norm c) by now apply Rinv_0_lt_compat. split; auto.
  set (k := / norm c) in *.
  assert (KN : k * vx c * (k * vx c) + k * vy c * (k * vy c) + k * vz c * (k * vz c) = 1).
  { transitivity (k * k * nrm2 c); [unfold nrm2; destruct c; vunf; ring|].
    assert (E : nrm2 c = norm c * norm c) by (unfold norm; rewrite sqrt_sqrt; auto; unfold nrm2; destruct c; vunf; nra).
    rewrite E. unfold k. field. lra. }
  set (A := p_axes f) in *.
  assert (N0 : nrm2 (r0 (mT (M3 (vmul (r0 A) (vscale k c)) (vmul (r1 A) (vscale k c)) (vmul (r2 A) (vscale k c))))) = k * vx c * (k * vx c)).
  { transitivity (k * vx c * (k * vx c) * dot (r0 (mT A)) (r0 (mT A))); [|rewrite O00; ring]. destruct A as [[] [] []]. unfold nrm2. munf. ring. }
  assert (N1 : nrm2 (r1 (mT (M3 (vmul (r0 A) (vscale k c)) (vmul (r1 A) (vscale k c)) (vmul (r2 A) (vscale k c))))) = k * vy c * (k * vy c)).
  { transitivity (k * vy c * (k * vy c) * dot (r1 (mT A)) (r1 (mT A))); [|rewrite O11; ring]. destruct A as [[] [] []]. unfold nrm2. munf. ring. }
  assert (N2 : nrm2 (r2 (mT (M3 (vmul (r0 A) (vscale k c)) (vmul (r1 A) (vscale k c)) (vmul (r2 A) (vscale k c))))) = k * vz c * (k * vz c)).
  { transitivity (k * vz c * (k * vz c) * dot (r2 (mT A)) (r2 (mT A))); [|rewrite O22; ring]. destruct A as [[] [] []]. unfold nrm2. munf. ring. }
  split; [|repeat split; auto].
  - unfold frobenius. rewrite <- sqrt_1. f_equal. rewrite <- KN, <- N0, <- N1, <- N2. destruct A as [[] [] []]. unfold nrm2. munf. ring.
  - assert (0 < k * vx c) by now apply Rmult_lt_0_compat. assert (0 < k * vy c) by now apply Rmult_lt_0_compat. assert (0 < k * vz c) by now apply Rmult_lt_0_compat.
    set (a := k * vx c) in *. set (b := k * vy c) in *. set (d := k * vz c) in *. nra.
Qed.
(** It is not the covariance in data coordinates, nor any symmetric matrix. *)
Theorem C143_symmetric_refuted : exists arr f A, PCAOrientation svd_ref arr None None = Ok f /\
  aligned_covariance TNoise f = Some A /\ A <> mT A /\ forall c, A <> covariance_in_data (p_axes f) c.
Proof.
  destruct tilted_fit as (f & F & N & LT & P). exists tilted_data, f.
  pose proof (covariance_noise_value _ _ _ lapack_ref F) as CV.
  destruct (fit_inv _ _ _ lapack_ref F) as (_ & u & m & Hs & _ & _ & _ & _ & _ & _ & D). pose proof (svd_v _ _ _ _ Hs) as O.
  pose proof (svd_s01 _ _ _ _ Hs) as S01. set (s := p_s f) in *.
  set (c := vscale _ _) in CV. assert (L4 : 0 < 4 / INR (length tilted_data)) by (apply Rdiv_lt_0_compat; [lra|apply lt_0_INR; simpl; lia]).
  assert (C0 : 0 < vx c) by (unfold c; cbn [vscale vx]; repeat apply Rmult_lt_0_compat; lra).
  assert (C2 : 0 < vz c) by (unfold c; cbn [vscale vz]; repeat apply Rmult_lt_0_compat; lra).
  assert (C02 : vz c < vx c).
  { unfold c. cbn [vscale vx vz]. apply Rmult_lt_compat_l; auto. assert (vz s * vz s < vx s * vx s) by nra. nra. }
  destruct (aligned_some f c CV C0) as [AL NC]. eexists. split; auto. split; [exact AL|].
  assert (K : 0 < / norm c) by now apply Rinv_0_lt_compat. set (k := / norm c) in *.
  assert (R2 : vx (r2 (p_axes f)) * vx (r2 (p_axes f)) = 9/25 /\ vz (r2 (p_axes f)) * vz (r2 (p_axes f)) = 16/25).
  { pose proof (normal_line f D) as NL. rewrite N in NL. destruct NL as [H|H].
    - rewrite <- H. simpl. lra.
    - assert (X := f_equal vx H). assert (Z := f_equal vz H). cbn [vneg vx vz] in X, Z. nra. }
  destruct R2 as [R2x R2z].
  apply orthonormal_T in O. destruct O as (_ & _ & O22 & _).
  assert (R0z : vz (r0 (p_axes f)) * vz (r0 (p_axes f)) <= 9/25).
  { revert O22. destruct (p_axes f) as [a b d]. cbn [r0 r1 r2] in *. unfold mT, dot. cbn [r0 r1 r2 vx vy vz]. intros O22. assert (0 <= vz b * vz b) by nra. lra. }
  set (A := M3 _ _ _).
  assert (NS : A <> mT A).
  { intros E. assert (X := f_equal (fun B => vz (r0 B)) E). unfold A in X. unfold mT in X. cbn [r0 r1 r2 vmul vscale vx vy vz] in X.
    set (p := vz (r0 (p_axes f))) in *. set (q := vx (r2 (p_axes f))) in *.
    assert (Y : p * p * (vz c * vz c) = q * q * (vx c * vx c)).
    { assert (X' : p * vz c = q * vx c) by (apply Rmult_eq_reg_l with k; lra).
      replace (p * p * (vz c * vz c)) with (p * vz c * (p * vz c)) by ring. rewrite X'. ring. }
    rewrite R2x in Y. assert (vz c * vz c < vx c * vx c) by nra. assert (0 < vz c * vz c) by nra. nra. }
  split; auto. intros d E. apply NS. rewrite E. unfold covariance_in_data.
  destruct (p_axes f) as [[] [] []], d. unfold mT, vm. simpl. f_equal; apply vec3_eq; vunf; ring.
Qed.

Print Assumptions C141_angle.
Print Assumptions C141_sign_refuted.
Print Assumptions C142_zero.
Print Assumptions C142_self.
Print Assumptions C142_self_refuted.
Print Assumptions C142_symmetric_refuted.
Print Assumptions C142_scale.
Print Assumptions C142_repeat.
Print Assumptions C143_aligned.
Print Assumptions C143_symmetric_refuted.
