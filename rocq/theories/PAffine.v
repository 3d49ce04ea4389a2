(** C235: how a regression changes with the coordinates. *)
From Coq Require Import Reals Lra Lia List Arith Psatz.
From Verif Require Import RVec Trig SpecPlane LNum SpecConics MConics LConics SpecLinear MAxes MLinear LLinear
  LAngles PLinear PLever PPress.
Import ListNotations.
Notation length := List.length.
Open Scope R_scope.

(** [A'] shows the points of [A] in other horizontal axes, the heights scaled by [k] and
    sheared by a plane *)
Definition remapped (r : nat) (A A' : matn) (a b c d s t k p q h : R) : Prop := forall i, (i < r)%nat ->
  A' i 0%nat = a * A i 0%nat + b * A i 1%nat + s /\
  A' i 1%nat = c * A i 0%nat + d * A i 1%nat + t /\
  A' i 2%nat = k * A i 2%nat + p * A i 0%nat + q * A i 1%nat + h.

Lemma remapped_sse : forall r A A' a b c d s t k p q h x y z x' y' z', remapped r A A' a b c d s t k p q h ->
  x' * a + y' * c = k * x + p -> x' * b + y' * d = k * y + q -> x' * s + y' * t + z' = k * z + h ->
  vsse r A' x' y' z' = k * k * vsse r A x y z.
Proof.
  intros r A A' a b c d s t k p q h x y z x' y' z' H X Y Z. unfold vsse. rewrite <- sumn_scal. apply sumn_ext. intros i I.
  destruct (H i I) as (-> & -> & ->). cbv zeta.
  replace (x' * (a * A i 0%nat + b * A i 1%nat + s) + y' * (c * A i 0%nat + d * A i 1%nat + t) + z')
    with ((x' * a + y' * c) * A i 0%nat + (x' * b + y' * d) * A i 1%nat + (x' * s + y' * t + z')) by ring.
  rewrite X, Y, Z. ring.
Qed.

Theorem C235_affine : forall inv r A A' a b c d s t k p q h m, numpy_inv inv -> (0 < r)%nat ->
  a * d - b * c <> 0 -> remapped r A A' a b c d s t k p q h ->
  rbind (Regression r 3 A) (coefs inv) = Ok m ->
  exists m', rbind (Regression r 3 A') (coefs inv) = Ok m' /\
  m' 0%nat * a + m' 1%nat * c = k * m 0%nat + p /\ m' 0%nat * b + m' 1%nat * d = k * m 1%nat + q /\
  rss r A' m' = k * k * rss r A m.
Proof.
  intros inv r A A' a b c d s t k p q h m HI R0 DT H F. set (D := a * d - b * c) in *.
  assert (NC : ~ collinear_xy r A) by (apply (proj2 (C78_defined inv r A HI R0)); eauto).
  assert (NC' : ~ collinear_xy r A').
  { intros (u & v & w & N & E). apply NC. exists (u * a + v * c), (u * b + v * d), (w - u * s - v * t). split.
    - destruct (Req_dec (u * a + v * c) 0) as [X|X]; [|auto]. destruct (Req_dec (u * b + v * d) 0) as [Y|Y]; [|auto]. exfalso.
      assert (U : u * D = 0) by (unfold D; replace (u * (a * d - b * c)) with ((u * a + v * c) * d - (u * b + v * d) * c) by ring; rewrite X, Y; ring).
      assert (V : v * D = 0) by (unfold D; replace (v * (a * d - b * c)) with ((u * b + v * d) * a - (u * a + v * c) * b) by ring; rewrite X, Y; ring).
      apply Rmult_integral in U. apply Rmult_integral in V. tauto.
    - intros i I. specialize (E i I). destruct (H i I) as (X & Y & _). rewrite X, Y in E. lra. }
  destruct (proj1 (proj2 (C78_defined inv r A' HI R0)) NC') as [m' F']. exists m'. split; [exact F'|].
  destruct (C78_least_squares inv r A m HI R0 F) as (_ & LS). destruct (C78_least_squares inv r A' m' HI R0 F') as (_ & LS'). cbv zeta in LS, LS'.
  set (c0 := col_mean r A 2 - _ - _) in LS. set (c1 := col_mean r A' 2 - _ - _) in LS'.
  set (X := k * m 0%nat + p). set (Y := k * m 1%nat + q).
  set (x' := (X * d - Y * c) / D). set (y' := (Y * a - X * b) / D). set (z' := k * c0 + h - x' * s - y' * t).
  assert (EX : x' * a + y' * c = X) by (unfold x', y', D; field; exact DT).
  assert (EY : x' * b + y' * d = Y) by (unfold x', y', D; field; exact DT).
  assert (E1 : vsse r A' x' y' z' = k * k * vsse r A (m 0%nat) (m 1%nat) c0) by (eapply remapped_sse; eauto; unfold z'; ring).
  assert (LE : vsse r A' x' y' z' <= vsse r A' (m' 0%nat) (m' 1%nat) c1).
  { rewrite E1. destruct (Req_dec k 0) as [K|K].
    - rewrite K. replace (0 * 0 * _) with 0 by ring. apply sumn_nonneg. intros; apply Rle_0_sqr.
    - rewrite (remapped_sse r A A' a b c d s t k p q h ((m' 0%nat * a + m' 1%nat * c - p) / k) ((m' 0%nat * b + m' 1%nat * d - q) / k)
        ((m' 0%nat * s + m' 1%nat * t + c1 - h) / k) (m' 0%nat) (m' 1%nat) c1 H) by (field; auto).
      apply Rmult_le_compat_l; [apply Rle_0_sqr|]. apply LS. }
  destruct (proj2 (LS' x' y' z') LE) as (MX & MY & Z). rewrite <- MX, <- MY. split; [exact EX|]. split; [exact EY|].
  rewrite <- !rss_vsse. fold c0 c1. rewrite <- E1, Z, MX, MY. reflexivity.
Qed.

Lemma azimuth_value : forall inv r A m l, (0 < r)%nat -> rbind (Regression r 3 A) (coefs inv) = Ok m ->
  LinearOrientation inv r 3 A = Ok l -> l_azimuth l = - atan2 (- m 1%nat) (- m 0%nat).
Proof.
  intros inv r A m l R0 F L. unfold LinearOrientation in L. rewrite (reg3 r A R0) in *. cbn [rbind] in *. rewrite F in L. cbn [rbind g_k negb Nat.eqb] in L.
  destruct (covariance inv _) as [V| |]; cbn [rbind] in L; try discriminate. injection L as <-. reflexivity.
Qed.

(** Turning or mirroring the map and moving the points leave the dip; moving them leaves the strike
    too. *)
Theorem C235_dip : forall inv r A A' a b c d s t h l, numpy_inv inv -> (0 < r)%nat ->
  a * a + b * b = 1 -> c * c + d * d = 1 -> a * c + b * d = 0 -> remapped r A A' a b c d s t 1 0 0 h ->
  LinearOrientation inv r 3 A = Ok l ->
  exists l', LinearOrientation inv r 3 A' = Ok l' /\ snd (l_strike_dip l') = snd (l_strike_dip l) /\
  (a = 1 -> d = 1 -> l_strike_dip l' = l_strike_dip l).
Proof.
  intros inv r A A' a b c d s t h l HI R0 U V O H L.
  assert (FM : exists m, rbind (Regression r 3 A) (coefs inv) = Ok m).
  { unfold LinearOrientation in L. rewrite (reg3 r A R0) in *. cbn [rbind] in *. destruct (coefs inv _) as [m| |]; [eauto|discriminate..]. }
  destruct FM as [m F].
  assert (DT : a * d - b * c <> 0).
  { intros Z. assert (Q : (a * d - b * c) * (a * d - b * c) + (a * c + b * d) * (a * c + b * d) = 1).
    { replace (_ + _) with ((a * a + b * b) * (c * c + d * d)) by ring. rewrite U, V. ring. } rewrite Z, O in Q. lra. }
  destruct (C235_affine inv r A A' a b c d s t 1 0 0 h m HI R0 DT H F) as (m' & F' & X & Y & _).
  destruct (C79_angles inv r A m HI R0 F) as (l1 & EL & ANG). rewrite L in EL. injection EL as <-.
  destruct (C79_angles inv r A' m' HI R0 F') as (l' & EL' & ANG'). exists l'. split; [exact EL'|].
  assert (N : m' 0%nat * m' 0%nat + m' 1%nat * m' 1%nat = m 0%nat * m 0%nat + m 1%nat * m 1%nat).
  { replace (m 0%nat) with (m' 0%nat * a + m' 1%nat * c) by lra. replace (m 1%nat) with (m' 0%nat * b + m' 1%nat * d) by lra.
    transitivity (m' 0%nat * m' 0%nat * (a * a + b * b) + 2 * (m' 0%nat * m' 1%nat) * (a * c + b * d) + m' 1%nat * m' 1%nat * (c * c + d * d)); [rewrite U, V, O; ring|ring]. }
  destruct (l_strike_dip l) as [s1 d1] eqn:LD. destruct (l_strike_dip l') as [s2 d2] eqn:LD'. cbn [snd].
  destruct ANG as (Sr & Dr & TA & PN). destruct ANG' as (Sr' & Dr' & TA' & PN').
  assert (DD : d2 = d1).
  { assert (Z1 : cos (radians d1) = vz (graph_normal (m 0%nat) (m 1%nat))) by (rewrite <- PN, plane_normal_components; reflexivity).
    assert (Z2 : cos (radians d2) = vz (graph_normal (m' 0%nat) (m' 1%nat))) by (rewrite <- PN', plane_normal_components; reflexivity).
    apply dip_of_cos; [lra..|]. rewrite Z1, Z2. unfold graph_normal. cbn [vscale vz]. now rewrite N. }
  split; [exact DD|]. intros A1 D1.
  assert (b = 0) by nra. assert (c = 0) by nra. subst a b c d.
  pose proof (azimuth_value inv r A m l R0 F L) as Z. pose proof (azimuth_value inv r A' m' l' R0 F' EL') as Z'.
  replace (m' 0%nat) with (m 0%nat) in Z' by lra. replace (m' 1%nat) with (m 1%nat) in Z' by lra.
  unfold l_strike_dip in LD, LD'. injection LD as <- <-. injection LD' as <- <-. rewrite Z, Z' in *. f_equal. exact DD.
Qed.

Example C235_ex : forall inv, numpy_inv inv ->
  let A := array_of [V3 1 1 1; V3 1 (-1) 1; V3 (-1) 1 (-1); V3 (-1) (-1) 0] in
  let A' := array_of [V3 1 (-1) 1; V3 (-1) (-1) 1; V3 1 1 (-1); V3 (-1) 1 0] in
  exists l l', LinearOrientation inv 4 3 A = Ok l /\ LinearOrientation inv 4 3 A' = Ok l' /\
  snd (l_strike_dip l') = snd (l_strike_dip l).
Proof.
  intros inv HI A A'.
  assert (N : ~ collinear_xy 4 A).
  { intros (u & v & w & U & H). pose proof (H 0%nat ltac:(lia)) as H0. pose proof (H 1%nat ltac:(lia)) as H1. pose proof (H 2%nat ltac:(lia)) as H2.
    unfold A, array_of in H0, H1, H2. cbn [nth vx vy vz] in H0, H1, H2. lra. }
  destruct (proj1 (proj2 (C78_defined inv 4 A HI ltac:(lia))) N) as [m F].
  destruct (C79_angles inv 4 A m HI ltac:(lia) F) as (l & EL & _).
  destruct (C235_dip inv 4 A A' 0 1 (-1) 0 0 0 0 l) as (l' & EL' & D & _); auto; try lia; try ring.
  { intros i I. unfold A, A', array_of. destruct i as [|[|[|[|i]]]]; try lia; cbn [nth vx vy vz]; repeat split; ring. }
  exists l, l'. auto.
Qed.

(** Exchanging a horizontal axis with the vertical does not exchange the slopes: the regression
    of the exchanged points is another plane. *)
Theorem C235_exchange_refuted : forall inv, numpy_inv inv -> exists pts m m',
  let swap p := V3 (vz p) (vy p) (vx p) in
  rbind (Regression (length pts) 3 (array_of pts)) (coefs inv) = Ok m /\
  rbind (Regression (length pts) 3 (array_of (map swap pts))) (coefs inv) = Ok m' /\
  m 0%nat <> 0 /\ m' 0%nat * m 0%nat <> 1.
Proof.
  intros inv HI. set (pts := [V3 1 1 1; V3 1 (-1) 1; V3 (-1) 1 (-1); V3 (-1) (-1) 0]).
  set (pts' := [V3 1 1 1; V3 1 (-1) 1; V3 (-1) 1 (-1); V3 0 (-1) (-1)]).
  assert (N : ~ collinear_xy 4 (array_of pts)).
  { intros (u & v & w & U & H). pose proof (H 0%nat ltac:(lia)) as H0. pose proof (H 1%nat ltac:(lia)) as H1. pose proof (H 2%nat ltac:(lia)) as H2.
    unfold pts, array_of in H0, H1, H2. cbn [nth vx vy vz] in H0, H1, H2. lra. }
  assert (N' : ~ collinear_xy 4 (array_of pts')).
  { intros (u & v & w & U & H). pose proof (H 0%nat ltac:(lia)) as H0. pose proof (H 1%nat ltac:(lia)) as H1. pose proof (H 2%nat ltac:(lia)) as H2.
    unfold pts', array_of in H0, H1, H2. cbn [nth vx vy vz] in H0, H1, H2. lra. }
  destruct (proj1 (proj2 (C78_defined inv 4 _ HI ltac:(lia))) N) as [m F].
  destruct (proj1 (proj2 (C78_defined inv 4 _ HI ltac:(lia))) N') as [m' F'].
  exists pts, m, m'. cbv zeta. split; [exact F|]. split; [exact F'|].
  assert (M : m 0%nat = 3 / 4).
  { destruct (fitted_residual inv 4 _ m HI ltac:(lia) F) as (_ & X & _). revert X.
    unfold fitted, col_mean, pts, array_of. cbn [sumn nth vx vy vz]. simpl INR. intros X. lra. }
  assert (M' : m' 0%nat = 6 / 5).
  { destruct (fitted_residual inv 4 _ m' HI ltac:(lia) F') as (_ & X & Y). revert X Y.
    unfold fitted, col_mean, pts', array_of. cbn [sumn nth vx vy vz]. simpl INR. intros X Y. lra. }
  rewrite M, M'. split; lra.
Qed.

Print Assumptions C235_affine.
Print Assumptions C235_dip.
Print Assumptions C235_exchange_refuted.
